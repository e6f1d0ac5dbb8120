(* Counting, independent of the code. *)
From Verif Require Import Base.

(* exactly n things have the property P *)
Definition there_are {A} (n : nat) (P : A -> Prop) : Prop :=
  exists l, NoDup l /\ length l = n /\ forall x, In x l <-> P x.

(* sequences of m numbers, the j-th one below b + j *)
Definition rising (b m : nat) (rs : list nat) : Prop :=
  length rs = m /\ forall j r, nth_error rs j = Some r -> r < b + j.
(* sequences of m numbers, the j-th one below b - j *)
Definition falling (b m : nat) (ds : list nat) : Prop :=
  length ds = m /\ forall j d, nth_error ds j = Some d -> d < b - j.
