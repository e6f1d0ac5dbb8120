(* Statistics of the numbers in a text. *)
From Verif Require Import Base Parse_Spec Grid_Spec Scan_Spec Real_Model Real_Spec.
From Coq Require Import ZArith Floats.SpecFloat DecimalString NArith String List.
Import ListNotations.
Local Open Scope nat_scope.

(* the maximal runs of characters that are not among d *)
Fixpoint pieces (d s : list ascii) : list (list ascii) :=
  match s with
  | [] => []
  | c :: s' =>
      if is_delim d c then pieces d s'
      else
        let ws := pieces d s' in
        match s' with
        | [] => [[c]]
        | c' :: _ => if is_delim d c' then [c] :: ws else match ws with [] => [[c]] | w :: ws => (c :: w) :: ws end
        end
  end.
(* the lines that hold anything, as lists of texts between commas and blanks *)
Definition number_rows (text : list ascii) : list (list (list ascii)) :=
  filter nonempty (map (pieces (str ", ")) (pieces [ascii_of_nat 10; ascii_of_nat 13] text)).
Definition number_columns (text : list ascii) : list (list (list ascii)) :=
  map (column (number_rows text)) (seq 0 (list_max (map (@length _) (number_rows text)))).

(* the number a text stands for; whether reading it is defined (see C48) *)
Definition number (s : list ascii) : option spec_float :=
  match parse_real double s (S754_zero false) with Ok (true, v) => Some v | _ => None end.
Definition readable (s : list ascii) : Prop := exists b v, parse_real double s (S754_zero false) = Ok (b, v).

(* the (upper) median: at most half of the values are smaller, less than half are larger *)
Definition median {A} (lt : A -> A -> bool) (vs : list A) (m : A) : Prop :=
  In m vs /\ 2 * length (filter (fun y => lt y m) vs) <= length vs /\ 2 * length (filter (lt m) vs) < length vs.

Definition total (vs : list spec_float) : spec_float := fold_left (SFadd 53 1024) vs (S754_zero false).
Definition mean (vs : list spec_float) : spec_float := SFdiv 53 1024 (total vs) (b64 (Z.of_nat (length vs)) 0).

(* the statistics of one list of numbers *)
Definition statistics (show : spec_float -> list ascii) (vs : list spec_float) (t : list ascii) : Prop :=
  exists mn mx md, smallest SFltb vs mn /\ largest SFltb vs mx /\ median SFltb vs md /\
    t = concat (map (fun x => show x ++ [ascii_of_nat 9]) [mn; mx; total vs; mean vs; md]).

(* one line for each list that is not empty, with its number *)
Inductive report_of (show : spec_float -> list ascii) (label : list ascii) : nat -> list (list spec_float) -> list ascii -> Prop :=
| rep_end : forall i, report_of show label i [] []
| rep_none : forall i vss t, report_of show label (S i) vss t -> report_of show label i ([] :: vss) t
| rep_line : forall i vs vss st t, vs <> [] -> statistics show vs st -> report_of show label (S i) vss t ->
    report_of show label i (vs :: vss)
      (label ++ str "[" ++ list_ascii_of_string (NilEmpty.string_of_uint (N.to_uint (N.of_nat i))) ++ str "]" ++ [ascii_of_nat 9] ++ st ++ [ascii_of_nat 10] ++ t).
