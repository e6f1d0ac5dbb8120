(* The type char. *)
From Verif Require Import Base Gen_Model Ext_Model.

(* plain char is unsigned or signed *)
Definition a_char (c : int_type) : Prop := c = IntType 0 255 false \/ c = IntType (-128) 127 false.

