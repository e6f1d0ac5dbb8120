(* Outcomes, bounds-checked memory access and loops: the small imperative
   language in which the C++ functions of /repo/strtk.hpp are transcribed.
   Nothing in this file models a particular function of the library. *)
From Coq Require Export List Arith NArith ZArith Lia Bool Ascii.
From Coq Require String.
Export String.StringSyntax.
Delimit Scope string_scope with string.
From Coq Require Export ZifyBool ZifyNat ZifyN.
Export ListNotations.
Open Scope nat_scope.
Open Scope list_scope.

(* Result of running a piece of C++ code.
   [UB]: undefined behaviour happened (access outside an object, signed
   overflow, use of an indeterminate value).
   [OutOfFuel]: the loop did not finish within its fuel; theorems never
   conclude this for correct code, it stands for a loop that keeps running. *)
Inductive outcome (A : Type) : Type :=
| Ok (a : A)
| UB
| OutOfFuel.
Arguments Ok {A} a.
Arguments UB {A}.
Arguments OutOfFuel {A}.

Definition bind {A B} (m : outcome A) (f : A -> outcome B) : outcome B :=
  match m with
  | Ok a => f a
  | UB => UB
  | OutOfFuel => OutOfFuel
  end.

Notation "x <- m ;; k" := (bind m (fun x => k))
  (at level 61, m at next level, right associativity).
Notation "' p <- m ;; k" := (bind m (fun x => match x with p => k end))
  (at level 61, p pattern, m at next level, right associativity).

(* *(begin + i) for a range whose elements are [s]. *)
Definition rd {A} (s : list A) (i : nat) : outcome A :=
  match nth_error s i with
  | Some a => Ok a
  | None => UB
  end.

Fixpoint upd {A} (s : list A) (i : nat) (v : A) : list A :=
  match s, i with
  | [], _ => []
  | _ :: s', 0 => v :: s'
  | a :: s', S i' => a :: upd s' i' v
  end.

(* *(begin + i) = v for a mutable range. *)
Definition wr {A} (s : list A) (i : nat) (v : A) : outcome (list A) :=
  if i <? length s then Ok (upd s i v) else UB.

(* A loop: the body either continues with a new state or leaves with a result. *)
Fixpoint loop {S R : Type} (fuel : nat) (body : S -> outcome (S + R)) (st : S)
  : outcome R :=
  match fuel with
  | 0 => OutOfFuel
  | S f =>
      match body st with
      | Ok (inl st') => loop f body st'
      | Ok (inr r) => Ok r
      | UB => UB
      | OutOfFuel => OutOfFuel
      end
  end.

(* for (i = 0; i < n; ++i) body(i) with state threading and no early exit. *)
Fixpoint for_up {S : Type} (i n : nat) (body : nat -> S -> outcome S) (st : S)
  : outcome S :=
  match n with
  | 0 => Ok st
  | Datatypes.S n' => st' <- body i st ;; for_up (Datatypes.S i) n' body st'
  end.

(* Elements of the sub-range [first,second) of s. *)
Definition sub {A} (s : list A) (r : nat * nat) : list A :=
  firstn (snd r - fst r) (skipn (fst r) s).

(* ------------------------------------------------------------------ *)
(* Program logic: [holds m Q] = m finishes without undefined behaviour
   and its result satisfies Q. *)
Definition holds {A} (m : outcome A) (Q : A -> Prop) : Prop :=
  match m with
  | Ok a => Q a
  | _ => False
  end.

Lemma holds_ok {A} (a : A) (Q : A -> Prop) : Q a -> holds (Ok a) Q.
Proof. intros H; exact H. Qed.

Lemma holds_bind {A B} (m : outcome A) (f : A -> outcome B) (Q : B -> Prop) :
  holds m (fun a => holds (f a) Q) -> holds (bind m f) Q.
Proof. destruct m; simpl; auto. Qed.

Lemma holds_bind2 {A B} (m : outcome A) (f : A -> outcome B) P (Q : B -> Prop) :
  holds m P -> (forall a, P a -> holds (f a) Q) -> holds (bind m f) Q.
Proof. destruct m; simpl; auto; intros []. Qed.

Lemma holds_weaken {A} (m : outcome A) (P Q : A -> Prop) :
  holds m P -> (forall a, P a -> Q a) -> holds m Q.
Proof. destruct m; simpl; auto. Qed.

Lemma holds_ex {A} (m : outcome A) (Q : A -> Prop) :
  holds m Q <-> exists a, m = Ok a /\ Q a.
Proof.
  split.
  - destruct m; simpl; intros H; try contradiction. eauto.
  - intros (a & -> & H). exact H.
Qed.

Lemma holds_eq {A} (m : outcome A) (a : A) : holds m (fun x => x = a) -> m = Ok a.
Proof. destruct m; simpl; intros H; try contradiction. congruence. Qed.

Lemma holds_of_eq {A} (m : outcome A) (a : A) (Q : A -> Prop) :
  m = Ok a -> Q a -> holds m Q.
Proof. intros ->; auto. Qed.

(* The loop rule: invariant I, measure mu decreasing at every iteration. *)
Lemma loop_rule {S R} (I : S -> Prop) (mu : S -> nat) (Q : R -> Prop)
      (body : S -> outcome (S + R)) :
  (forall st, I st ->
     holds (body st) (fun x => match x with
                              | inl st' => I st' /\ mu st' < mu st
                              | inr r => Q r
                              end)) ->
  forall fuel st, I st -> mu st < fuel -> holds (loop fuel body st) Q.
Proof.
  intros Hb fuel. induction fuel as [|f IH]; intros st Hi Hm; [lia|].
  cbn [loop]. specialize (Hb st Hi).
  destruct (body st) as [[st'|r]| |]; simpl in Hb; try contradiction.
  - destruct Hb as [Hi' Hd]. apply IH; [exact Hi'|lia].
  - exact Hb.
Qed.

Lemma for_up_rule {S} (I : nat -> S -> Prop) (body : nat -> S -> outcome S) :
  forall n i st,
  (forall k s, i <= k < i + n -> I k s -> holds (body k s) (I (Datatypes.S k))) ->
  I i st -> holds (for_up i n body st) (I (i + n)).
Proof.
  induction n as [|n IH]; intros i st Hb Hi; cbn [for_up].
  - simpl. now rewrite Nat.add_0_r.
  - apply holds_bind2 with (P := I (Datatypes.S i)).
    + apply Hb; [lia|exact Hi].
    + intros s Hs. replace (i + Datatypes.S n) with (Datatypes.S i + n) by lia.
      apply IH; [|exact Hs]. intros k s' Hk. apply Hb. lia.
Qed.

Lemma rd_ok {A} (s : list A) i : i < length s -> exists a, rd s i = Ok a /\ nth_error s i = Some a.
Proof.
  intros H. unfold rd. destruct (nth_error s i) eqn:E; eauto.
  apply nth_error_None in E. lia.
Qed.

Lemma rd_ub {A} (s : list A) i : length s <= i -> rd s i = UB.
Proof. intros H. unfold rd. now rewrite (proj2 (nth_error_None s i)). Qed.

Lemma holds_rd {A} (s : list A) i (Q : A -> Prop) :
  i < length s -> (forall a, nth_error s i = Some a -> Q a) -> holds (rd s i) Q.
Proof. intros H HQ. destruct (rd_ok s i H) as (a & E & N). rewrite E. simpl. auto. Qed.

Lemma rd_nth {A} (s : list A) i a : nth_error s i = Some a -> rd s i = Ok a.
Proof. unfold rd; now intros ->. Qed.

Lemma rd_app_r {A} (a b : list A) i : length a <= i -> rd (a ++ b) i = rd b (i - length a).
Proof. intros H. unfold rd. now rewrite nth_error_app2. Qed.

Lemma rd_app_l {A} (a b : list A) i : i < length a -> rd (a ++ b) i = rd a i.
Proof. intros H. unfold rd. now rewrite nth_error_app1. Qed.

Lemma rd_here {A} (a : list A) x b : rd (a ++ x :: b) (length a) = Ok x.
Proof. rewrite rd_app_r by lia. now rewrite Nat.sub_diag. Qed.

Lemma upd_length {A} (s : list A) i v : length (upd s i v) = length s.
Proof. revert i; induction s as [|a s IH]; intros [|i]; simpl; auto. Qed.

Lemma upd_app_r {A} (a b : list A) i v :
  length a <= i -> upd (a ++ b) i v = a ++ upd b (i - length a) v.
Proof.
  revert i; induction a as [|x a IH]; intros i H; simpl in *.
  - now rewrite Nat.sub_0_r.
  - destruct i; [lia|]. simpl. f_equal. apply IH. lia.
Qed.

Lemma upd_app_l {A} (a b : list A) i v :
  i < length a -> upd (a ++ b) i v = upd a i v ++ b.
Proof.
  revert i; induction a as [|x a IH]; intros [|i] H; simpl in *; try lia; auto.
  f_equal. apply IH. lia.
Qed.

Lemma upd_here {A} (a : list A) x b v : upd (a ++ x :: b) (length a) v = a ++ v :: b.
Proof. rewrite upd_app_r by lia. now rewrite Nat.sub_diag. Qed.

Lemma wr_ok {A} (s : list A) i v : i < length s -> wr s i v = Ok (upd s i v).
Proof. intros H. unfold wr. destruct (Nat.ltb_spec i (length s)); [auto|lia]. Qed.

Lemma wr_ub {A} (s : list A) i v : length s <= i -> wr s i v = UB.
Proof. intros H. unfold wr. destruct (Nat.ltb_spec i (length s)); [lia|auto]. Qed.

Lemma wr_here {A} (a : list A) x b v : wr (a ++ x :: b) (length a) v = Ok (a ++ v :: b).
Proof. rewrite wr_ok by (rewrite app_length; simpl; lia). now rewrite upd_here. Qed.

Lemma holds_wr {A} (s : list A) i v (Q : list A -> Prop) :
  i < length s -> Q (upd s i v) -> holds (wr s i v) Q.
Proof. intros H HQ. rewrite wr_ok by exact H. exact HQ. Qed.

Lemma nth_error_upd_same {A} (s : list A) i v :
  i < length s -> nth_error (upd s i v) i = Some v.
Proof. revert i; induction s as [|a s IH]; intros [|i] H; simpl in *; try lia; auto. apply IH; lia. Qed.

Lemma nth_error_upd_other {A} (s : list A) i j v :
  i <> j -> nth_error (upd s i v) j = nth_error s j.
Proof.
  revert i j; induction s as [|a s IH]; intros [|i] [|j] H; simpl; auto; try lia.
Qed.

Lemma nth_error_upd {A} (s : list A) i j v :
  nth_error (upd s i v) j =
  if i =? j then (if i <? length s then Some v else None) else nth_error s j.
Proof.
  destruct (Nat.eqb_spec i j) as [->|H].
  - destruct (Nat.ltb_spec j (length s)) as [L|L].
    + now apply nth_error_upd_same.
    + apply nth_error_None. now rewrite upd_length.
  - now apply nth_error_upd_other.
Qed.

(* list facts used everywhere *)
Lemma nth_error_some_lt {A} (s : list A) i a : nth_error s i = Some a -> i < length s.
Proof. intros H. apply nth_error_Some. congruence. Qed.

Lemma nth_error_ext {A} (a b : list A) :
  (forall i, nth_error a i = nth_error b i) -> a = b.
Proof.
  revert b; induction a as [|x a IH]; intros [|y b] H; auto.
  - specialize (H 0); discriminate H.
  - specialize (H 0); discriminate H.
  - f_equal.
    + specialize (H 0). simpl in H. congruence.
    + apply IH. intros i. exact (H (S i)).
Qed.

Lemma skipn_nth_cons {A} (s : list A) i a :
  nth_error s i = Some a -> skipn i s = a :: skipn (S i) s.
Proof.
  revert s; induction i as [|i IH]; intros [|x s] H; simpl in *; try discriminate.
  - congruence.
  - now apply IH.
Qed.

Lemma firstn_S_nth {A} (s : list A) i a :
  nth_error s i = Some a -> firstn (S i) s = firstn i s ++ [a].
Proof.
  revert s; induction i as [|i IH]; intros [|x s] H; simpl in *; try discriminate.
  - congruence.
  - f_equal. now apply IH.
Qed.

Lemma skipn_skipn {A} (s : list A) i j : skipn i (skipn j s) = skipn (i + j) s.
Proof.
  revert s; induction j as [|j IH]; intros s.
  - now rewrite Nat.add_0_r.
  - destruct s as [|x s].
    + now rewrite !skipn_nil.
    + rewrite Nat.add_succ_r. simpl. apply IH.
Qed.

Lemma skipn_app_len {A} (a b : list A) : skipn (length a) (a ++ b) = b.
Proof. induction a; simpl; auto. Qed.

Lemma firstn_app_len {A} (a b : list A) : firstn (length a) (a ++ b) = a.
Proof. induction a; simpl; congruence. Qed.

Lemma sub_length {A} (s : list A) a b :
  a <= b -> b <= length s -> length (sub s (a,b)) = b - a.
Proof. intros H1 H2. unfold sub. simpl. rewrite firstn_length, skipn_length. lia. Qed.

Lemma sub_app {A} (s : list A) a b c :
  a <= b -> b <= c -> sub s (a,b) ++ sub s (b,c) = sub s (a,c).
Proof.
  intros H1 H2. unfold sub. simpl.
  replace (c - a) with ((b - a) + (c - b)) by lia.
  replace (skipn b s) with (skipn (b - a) (skipn a s)).
  - symmetry. generalize (skipn a s) as l. generalize (b - a) as m. generalize (c - b) as k.
    intros k m. induction m as [|m IH]; intros l; simpl; auto.
    destruct l; simpl; [now rewrite firstn_nil|]. f_equal. apply IH.
  - rewrite skipn_skipn. f_equal. lia.
Qed.

Lemma sub_full {A} (s : list A) : sub s (0, length s) = s.
Proof. unfold sub. simpl. rewrite Nat.sub_0_r. apply firstn_all. Qed.

Lemma sub_empty {A} (s : list A) a : sub s (a,a) = [].
Proof. unfold sub. simpl. now rewrite Nat.sub_diag. Qed.

Lemma sub_S {A} (s : list A) a b x :
  a <= b -> nth_error s b = Some x -> sub s (a, S b) = sub s (a,b) ++ [x].
Proof.
  intros H1 H2. rewrite <- (sub_app s a b (S b)) by lia. f_equal.
  unfold sub. cbn [fst snd]. replace (S b - b) with 1 by lia.
  rewrite (skipn_nth_cons _ _ _ H2). reflexivity.
Qed.

Lemma nth_error_sub {A} (s : list A) a b i :
  i < b - a -> nth_error (sub s (a,b)) i = nth_error s (a + i).
Proof.
  intros H. unfold sub. simpl.
  assert (E : forall (l : list A) n k, k < n -> nth_error (firstn n l) k = nth_error l k).
  { induction l as [|x l IH]; intros [|n] [|k] Hk; simpl; auto; try lia. apply IH; lia. }
  rewrite E by exact H.
  clear. revert s; induction a as [|a IH]; intros s; simpl; auto.
  destruct s; simpl; [now destruct i|]. apply IH.
Qed.

Lemma nth_error_skipn {A} (s : list A) a i :
  nth_error (skipn a s) i = nth_error s (a + i).
Proof.
  revert s; induction a as [|a IH]; intros s; simpl; auto.
  destruct s; simpl; [now destruct i|]. apply IH.
Qed.

Lemma nth_error_firstn {A} (l : list A) n k :
  nth_error (firstn n l) k = if k <? n then nth_error l k else None.
Proof.
  revert n k; induction l as [|x l IH]; intros [|n] [|k]; simpl; auto.
  - destruct (S k <? S n); reflexivity.
  - rewrite IH. reflexivity.
Qed.

(* text literals *)
Definition str (s : String.string) : list ascii := String.list_ascii_of_string s.
Arguments str s%string.
