(* strtk_examples.cpp 953-1085, parse_example11: fields that check, trim and convert inside a
   parse.  The data is an argument where the example has a literal, and so are the contents of
   the variables beforehand: those without initialiser hold anything. *)
From Verif Require Import Base Split_Model Num_Model Real_Model Real_Spec Parse_Model Text_Model.
From Coq Require Import Floats.SpecFloat.
Local Open Scope nat_scope.

Definition field_int (v : Z) : target := Target Z (conv_signed t_int n_int) v.
Definition field_text (s : list ascii) : target := Target (list ascii) conv_string s.
Definition field_double (d : spec_float) : target := Target spec_float (parse_real double) d.
Definition check (c : converter unit) : target := Target unit c tt.

(* 956-974: var name : Integer = value; *)
Definition declaration_fields (variable_name : list ascii) (initial_value : Z) : list target :=
  [check (expect (str "var")); field_text variable_name; check (expect (str ":")); check (iexpect (str "Integer"));
   check (expect (str "=")); field_int initial_value].
Definition read_declaration (data variable_name : list ascii) (initial_value : Z) : outcome (bool * list target) :=
  parse_values (str " ;") data (declaration_fields variable_name initial_value).

(* 976-1000; after0, after1: what follows the first and the third field in memory *)
Definition named_fields (after0 after1 : list ascii) (i : Z) (s : list ascii) (d : spec_float) : list target :=
  [check (like (str "to*n?") after0); field_int i; check (like (str "token?") after1); field_text s;
   check (iexpect (str "tOkEn2")); field_double d].
Definition read_named (after0 after1 data : list ascii) (i : Z) (s : list ascii) (d : spec_float) : outcome (bool * list target) :=
  parse_values (str "=;") data (named_fields after0 after1 i s d).

(* operator< of std::string: characters compare as unsigned char *)
Fixpoint text_ltb (a b : list ascii) : bool :=
  match a, b with
  | _, [] => false
  | [], _ :: _ => true
  | x :: a, y :: b =>
      if (N_of_ascii x <? N_of_ascii y)%N then true
      else if (N_of_ascii y <? N_of_ascii x)%N then false
      else text_ltb a b
  end.
(* 1002-1024; low and hi: the literals -432.1 and +432.1; garbage: the local of inrange_impl *)
Definition field_double_in (garbage low hi d : spec_float) : target :=
  Target spec_float (inrange (parse_real double) SFltb garbage low hi) d.
Definition field_text_in (low hi s : list ascii) : target :=
  Target (list ascii) (inrange conv_string text_ltb [] low hi) s.
Definition ranged_fields (garbage low hi temperature : spec_float) (name : list ascii) : list target :=
  [check (expect (str "temperature")); field_double_in garbage low hi temperature;
   check (expect (str "name")); field_text_in (str "aaa") (str "zzz") name].
Definition read_ranged (garbage low hi : spec_float) (data : list ascii) (temperature : spec_float) (name : list ascii) : outcome (bool * list target) :=
  parse_values (str "=;") data (ranged_fields garbage low hi temperature name).

(* 1026-1046 *)
Definition field_trim (mode : nat) (rem s : list ascii) : target := Target (list ascii) (trim_string mode rem) s.
Definition read_trimmed (data s0 s1 s2 : list ascii) : outcome (bool * list target) :=
  parse_values (str ",") data [field_trim 0 (str "*") s0; field_trim 1 (str "*") s1; field_trim 2 (str "*") s2].
(* 1048-1068 *)
Definition field_trim_int (mode : nat) (rem : list ascii) (v : Z) : target := Target Z (trim_to (conv_signed t_int n_int) mode rem) v.
Definition field_trim_double (mode : nat) (rem : list ascii) (d : spec_float) : target := Target spec_float (trim_to (parse_real double) mode rem) d.
Definition read_trimmed_numbers (data s : list ascii) (i : Z) (d : spec_float) : outcome (bool * list target) :=
  parse_values (str ",") data [field_trim 0 (str "*?") s; field_trim_int 1 (str "?*") i; field_trim_double 2 (str "*?") d].
(* 1070-1083 *)
Definition field_lcase (s : list ascii) : target := Target (list ascii) as_lcase s.
Definition field_ucase (s : list ascii) : target := Target (list ascii) as_ucase s.
Definition read_cases (data s0 s1 : list ascii) : outcome (bool * list target) :=
  parse_values (str ",") data [field_lcase s0; field_ucase s1].
