(* C121: the names of types; C122: the lengths of numbers. *)
From Verif Require Import Base Num_Spec Tname_Model Tname_Spec Tname_Proofs.
From Coq Require Import Lia.
Local Open Scope nat_scope.

(* Scalars, arrays of scalars, pairs of these (nested to any depth) and containers of scalars are
   named as they are written in C++. *)
Theorem C121_written : forall t, named t -> sized t -> exists s, type_name t = Ok s /\ written t s.
Proof. exact named_written. Qed.
Print Assumptions C121_written.
Example C121_written_case :
  let t := Pair (Pair (Scalar ULLong) (Array (Scalar SChar) 100)) (Scalar String) in named t /\ sized t /\
  type_name t = Ok (str "std::pair<std::pair<unsigned long long int,signed char[100]>,std::string>") /\
  type_name (Container Multiset (Scalar Double)) = Ok (str "std::multiset<double>").
Proof. cbn zeta. split; [left; repeat constructor|]. split; [cbn; lia|]. split; reflexivity. Qed.

(* Different types of this kind have different names. *)
Theorem C121_injective : forall t u, named t -> named u -> sized t -> sized u -> type_name t = type_name u -> t = u.
Proof.
  intros t u Nt Nu St Su E. destruct (named_written t Nt St) as (x & Ex & Wx), (named_written u Nu Su) as (y & Ey & Wy).
  assert (x = y) by congruence. subst y. exact (named_unique t u x Nt Nu Wx Wy).
Qed.
Print Assumptions C121_injective.
Example C121_injective_case : type_name (Pair (Scalar Long) (Scalar LLong)) <> type_name (Pair (Scalar LLong) (Scalar Long)).
Proof. intros H. apply C121_injective in H; [discriminate| | |cbn; auto|cbn; auto]; left; repeat constructor. Qed.

(* Every type has a name. *)
Theorem C121_total : forall t, sized t -> exists s, type_name t = Ok s.
Proof. exact name_total. Qed.
Print Assumptions C121_total.
Example C121_total_case : type_name (Array (Pair (Other 3) (Scalar Int)) 7) = Ok (str "Unknown[7]").
Proof. reflexivity. Qed.

(* Anything but a scalar in a container or an array is Unknown, whatever it is; so is a container
   in a pair. *)
Theorem C121_nested_refuted : forall t u, (forall s, t <> Scalar s) -> (forall s, u <> Scalar s) ->
  (forall k, type_name (Container k t) = type_name (Container k u)) /\
  (forall n, type_name (Array t n) = type_name (Array u n)).
Proof.
  intros t u Ht Hu. assert (forall w, (forall s, w <> Scalar s) -> type_name_0 w = str "Unknown") as U.
  { intros [s| | | |] H; try reflexivity. now destruct (H s). }
  split; intros x; cbn [type_name type_name_pair]; now rewrite (U t Ht), (U u Hu).
Qed.
Print Assumptions C121_nested_refuted.
Example C121_nested_refuted_case :
  type_name (Container Vector (Container Vector (Scalar Int))) = Ok (str "std::vector<Unknown>") /\
  type_name (Container Vector (Pair (Scalar Int) (Scalar Int))) = Ok (str "std::vector<Unknown>").
Proof. split; reflexivity. Qed.

Theorem C121_pair_of_containers_refuted : forall k l t u b, type_name (Pair (Container k t) b) = type_name (Pair (Container l u) b).
Proof. reflexivity. Qed.
Print Assumptions C121_pair_of_containers_refuted.
Example C121_pair_of_containers_refuted_case :
  type_name (Pair (Container Vector (Scalar Int)) (Scalar Int)) = Ok (str "std::pair<Unknown,int>") /\
  type_name (Container Vector (Scalar Int)) = Ok (str "std::vector<int>").
Proof. split; reflexivity. Qed.

(* ---------- C122 ---------- *)

(* type_length is the number of characters type_to_string needs for a value without its sign; it
   is attained. *)
Theorem C122_length : forall s n, type_length s = Some n -> s <> Long -> s <> ULong ->
  (forall v, in_type s v -> exists x, to_string s v = Ok x /\ length x <= n + (if (v <? 0)%Z then 1 else 0)) /\
  (exists v x, in_type s v /\ (0 <= v)%Z /\ to_string s v = Ok x /\ length x = n).
Proof.
  intros s n Hn H1 H2. split.
  - intros v Hv. destruct (string_canonical s v Hv) as (x & E & C). exists x. split; [exact E|].
    destruct (canonical_length x v C) as (k & L & B1 & B2). enough (k <= n) by lia.
    apply (digits_bound k n v); [| |exact B2]; destruct s; cbn [type_length in_type] in Hn, Hv; try discriminate Hn; try easy; injection Hn as <-; lia.
  - destruct s; cbn [type_length] in Hn; try discriminate Hn; try easy; injection Hn as <-.
    + exists 32767%Z, (str "32767"). split; [cbn [in_type]; lia|]; split; [lia|]; split; vm_compute; reflexivity.
    + exists 2147483647%Z, (str "2147483647"). split; [cbn [in_type]; lia|]; split; [lia|]; split; vm_compute; reflexivity.
    + exists 9223372036854775807%Z, (str "9223372036854775807"). split; [cbn [in_type]; lia|]; split; [lia|]; split; vm_compute; reflexivity.
    + exists 65535%Z, (str "65535"). split; [cbn [in_type]; lia|]; split; [lia|]; split; vm_compute; reflexivity.
    + exists 4294967295%Z, (str "4294967295"). split; [cbn [in_type]; lia|]; split; [lia|]; split; vm_compute; reflexivity.
    + exists 18446744073709551615%Z, (str "18446744073709551615"). split; [cbn [in_type]; lia|]; split; [lia|]; split; vm_compute; reflexivity.
Qed.
Print Assumptions C122_length.
Example C122_length_case : type_length Short = Some 5 /\ to_string Short (-32768) = Ok (str "-32768").
Proof. split; reflexivity. Qed.

(* For long and unsigned long of 64 bits the length is too small, exactly from 10^10 on. *)
Theorem C122_long_refuted : forall s v, s = Long \/ s = ULong -> in_type s v ->
  exists x, type_length s = Some 10 /\ to_string s v = Ok x /\
    (length x > 10 + (if (v <? 0)%Z then 1 else 0) <-> (10 ^ 10 <= Z.abs v)%Z).
Proof.
  intros s v Hs Hv. destruct (string_canonical s v Hv) as (x & E & C). exists x. split; [now destruct Hs; subst|]. split; [exact E|].
  destruct (canonical_length x v C) as (k & L & B1 & B2). rewrite L. split; intros H.
  - destruct (Z_lt_le_dec (Z.abs v) (10 ^ 10)) as [G|G]; [|exact G]. assert (k <= 10) by (apply (digits_bound k 10 v); auto; lia). lia.
  - enough (10 < k) by lia. assert (10 ^ 10 < 10 ^ Z.of_nat k)%Z as G by lia. apply Z.pow_lt_mono_r_iff in G; lia.
Qed.
Print Assumptions C122_long_refuted.
Example C122_long_refuted_case : in_type Long 10000000000 /\ to_string Long 10000000000 = Ok (str "10000000000").
Proof. split; [cbn; lia|reflexivity]. Qed.
