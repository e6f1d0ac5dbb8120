(* strtk_keyvalue_example.cpp, example02: records of key-value pairs read into one object. *)
From Verif Require Import Base Split_Model Num_Model Parse_Model Sink_Model KV_Model.
Local Open Scope nat_scope.

Section Records.
Context {T : Type}.
(* conversion of text to double, and 0.0 *)
Variables (conv_real : converter T) (nought : T).

(* complex_data, 270-285 *)
Record complex_data := CD { v0 : Z; v1 : T; v2 : list ascii; v3 : list Z; v4 : list T; v5 : list (list ascii) }.

(* vec_sink, deq_sink and lst_sink attached to the members, 319-321 and 326-328; strtk.hpp 15348-15379 *)
Definition vec_sink (c : list Z) : target :=
  Target (sink (list Z)) (conv_sink (conv_signed t_int n_int) 0%Z (fun c v => c ++ [v]) (@length Z)) (attach c [] 1 (sink_of_delims (str ",") 1)).
Definition deq_sink (c : list T) : target :=
  Target (sink (list T)) (conv_sink conv_real nought (fun c v => c ++ [v]) (@length T)) (attach c [] 1 (sink_of_delims (str ",") 1)).
Definition lst_sink (c : list (list ascii)) : target :=
  Target (sink (list (list ascii))) (conv_sink conv_string [] (fun c v => c ++ [v]) (@length (list ascii))) (attach c [] 1 (sink_of_delims (str ",") 1)).

(* the registered variables, 323-328 *)
Definition members (cd : complex_data) : list target :=
  [Target Z (conv_signed t_int n_int) (v0 cd); Target T conv_real (v1 cd); Target (list ascii) conv_string (v2 cd);
   vec_sink (v3 cd); deq_sink (v4 cd); lst_sink (v5 cd)].
(* uintkey_map with key_count 6 and the registrations, 309-328 *)
Definition key_table : list (option nat) :=
  fold_left (fun lut k => snd (uintkey_register lut k k)) [0; 1; 2; 3; 4; 5] (repeat None 6).
(* complex_data::reset, 279-284 *)
Definition reset (vars : list target) : list target := firstn 3 vars ++ [vec_sink []; deq_sink []; lst_sink []].

(* the loop, 330-345: for each text what is printed, the members or the message of failure (None) *)
Fixpoint read_records (data : list (list ascii)) (vars : list target) : outcome (list (option (list target))) :=
  match data with
  | [] => Ok []
  | s :: data =>
      ' (b, vars) <- kv_parse (uintkey_lookup key_table) "|" "=" s vars ;;
      if (b : bool) then out <- read_records data (reset vars) ;; Ok (Some vars :: out)
      else out <- read_records data vars ;; Ok (None :: out)
  end.
End Records.
Arguments complex_data : clear implicits.
