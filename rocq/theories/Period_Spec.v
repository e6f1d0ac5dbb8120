(* Periods of time as texts. *)
From Verif Require Import Base Split_Model Real_Model Period_Model.
Local Open Scope nat_scope.

(* characters that end a number *)
Definition separator (c : ascii) : Prop := In c (str "DHRMINSECdhrminsec :").

(* the first parts of a text: number, separator, further separators; and what is left *)
Inductive parts : list ascii -> list (list ascii * ascii) -> list ascii -> Prop :=
| ps_nil : forall s, parts s [] s
| ps_part : forall v u g s l r,
    Forall (fun c => ~ separator c) v -> separator u -> Forall separator g -> (forall c q, s = c :: q -> ~ separator c) ->
    parts s l r -> parts (v ++ u :: g ++ s) ((v, u) :: l) r.

(* days, hours, minutes, seconds in milliseconds *)
Inductive unit_letter : ascii -> nat -> Z -> Prop :=
| u_day : forall c, In c (str "Dd") -> unit_letter c 0 86400000
| u_hour : forall c, In c (str "Hh") -> unit_letter c 1 3600000
| u_minute : forall c, In c (str "Mm") -> unit_letter c 2 60000
| u_second : forall c, In c (str "Ss") -> unit_letter c 3 1000.

Section Spec.
Variable O : reals.
Variable D : period_ops (target O).

(* the number v with the unit u is z milliseconds; only days may be negative *)
Definition amount (vu : list ascii * ascii) (k : nat) (z : Z) : Prop :=
  exists f t, unit_letter (snd vu) k f /\ (forall t0, parse_real O (fst vu) t0 = Ok (true, t)) /\
    (k <> 0 -> below_0 D (scale D f t) = false) /\ to_ll D (scale D f t) = Some z.

(* the sums from the left all fit into a long long *)
Inductive running_sum : Z -> list Z -> Z -> Prop :=
| rs_nil : forall a, running_sum a [] a
| rs_cons : forall a z zs b, (- 2 ^ 63 <= a + z < 2 ^ 63)%Z -> running_sum (a + z) zs b -> running_sum a (z :: zs) b.
End Spec.

(* the period written: four parts with different units, in any order *)
Definition period_text (O : reals) (D : period_ops (target O)) (s : list ascii) (q : Z) : Prop :=
  exists l r ks, parts s l r /\ length l = 4 /\ Forall2 (fun vu kz => amount O D vu (fst kz) (snd kz)) l ks /\
    NoDup (map fst ks) /\ running_sum 0 (map snd ks) q.

(* ---- double ---- *)
From Coq Require Import SpecFloat.
From Verif Require Import Real_Spec.
(* rounds towards zero *)
Definition truncate (d : spec_float) : option Z :=
  match d with
  | S754_zero _ => Some 0%Z
  | S754_finite neg m e =>
      let a := if (0 <=? e)%Z then (Zpos m * 2 ^ e)%Z else (Zpos m / 2 ^ (- e))%Z in
      let z := if neg then (- a)%Z else a in
      if ((- 2 ^ 63 <=? z) && (z <? 2 ^ 63))%Z then Some z else None
  | _ => None
  end.
Definition doubles : period_ops (target double) :=
  PeriodOps (target double) (fun f t => SFmul 53 1024 (b64 f 0) t) (fun t => SFltb t (S754_zero false)) truncate (S754_zero false).
