(* Repeated use of lexicographically_canonicalize. *)
From Coq Require Import Sorted.
From Verif Require Import Base Scan_Model Scan_Spec Scan_Proofs Scan_Props Comb_Spec Enum_Spec Canon_Model Multi_Proofs.
Local Open Scope nat_scope.

Section Canon.
Context {A : Type}.
Variables eqb ltb : A -> A -> bool.
Hypothesis He : forall x y, eqb x y = true <-> x = y.
Hypothesis Ho : total_order ltb.

Let irrefl := proj1 Ho.
Let trans := proj1 (proj2 Ho).

Lemma lex_at : forall m (a b : list A) x y, (forall i, i < m -> nth_error a i = nth_error b i) ->
  nth_error a m = Some x -> nth_error b m = Some y -> ltb x y = true -> lex (less ltb) a b.
Proof.
  induction m as [|m IH]; intros [|u a] [|v b] x y Hi Ha Hb L; try discriminate; cbn [nth_error] in *.
  - injection Ha as ->. injection Hb as ->. now apply lex_lt.
  - pose proof (Hi 0 ltac:(lia)) as H0. cbn [nth_error] in H0. injection H0 as ->. apply lex_eq.
    apply (IH a b x y); auto. intros i H. exact (Hi (S i) ltac:(lia)).
Qed.
Lemma nth_rotation (s : list A) p i : p + i < length s -> nth_error (rotation s p) i = nth_error s (p + i).
Proof.
  intros H. unfold rotation. rewrite nth_error_app1 by (rewrite skipn_length; lia). revert s H. induction p as [|p IH]; intros [|x s] H; cbn [length] in *; try lia; try reflexivity. cbn [skipn Nat.add nth_error]. apply IH. lia.
Qed.
Lemma nth_lt (s : list A) i x : nth_error s i = Some x -> i < length s.
Proof. intros H. apply nth_error_Some. congruence. Qed.
Lemma precedes_lex (s : list A) p : precedes ltb s p 0 -> lex (less ltb) (rotation s p) s.
Proof.
  intros (m & x & Hx & Hi & H). pose proof (nth_lt _ _ _ Hx) as L. destruct H as [H|(y & Hy & Hl)]; [lia|]. cbn [Nat.add] in *.
  apply (lex_at m _ _ x y); [|rewrite nth_rotation by lia; exact Hx|exact Hy|exact Hl].
  intros i Hm. rewrite nth_rotation by lia. now apply Hi.
Qed.
Lemma lex_then_le (a b : list A) : lex (less ltb) a b -> lex_le ltb a b.
Proof. induction 1; cbn [lex_le]; auto. Qed.
Lemma le_not_lex : forall a b : list A, lex_le ltb a b -> ~ lex (less ltb) b a.
Proof.
  induction a as [|x a IH]; intros b H G; [inversion G|]. inversion G as [?|? ? ? ? L|? ? ? L]; subst; cbn [lex_le] in H.
  - exact H.
  - destruct H as [H|(-> & _)]; [|unfold less in L; rewrite irrefl in L; discriminate].
    pose proof (trans _ _ _ H L) as K. rewrite irrefl in K. discriminate.
  - destruct H as [H|(_ & H)]; [rewrite irrefl in H; discriminate|]. exact (IH _ H L).
Qed.
Lemma precedes_asym (s : list A) p q : precedes ltb s p q -> precedes ltb s q p -> False.
Proof.
  intros (m & x & Hx & Hi & H) (n & y & Hy & Hj & G).
  pose proof (nth_lt _ _ _ Hx) as L1. pose proof (nth_lt _ _ _ Hy) as L2.
  destruct (Nat.lt_trichotomy m n) as [L|[<-|L]].
  - specialize (Hj m L). destruct H as [H|(z & Hz & K)]; [lia|].
    rewrite Hj, Hx in Hz. injection Hz as <-. rewrite irrefl in K. discriminate.
  - destruct H as [H|(z & Hz & K)]; [lia|]. destruct G as [G|(w & Hw & K')]; [lia|].
    rewrite Hy in Hz. injection Hz as <-. rewrite Hx in Hw. injection Hw as <-. pose proof (trans _ _ _ K K') as K2. rewrite irrefl in K2. discriminate.
  - specialize (Hi n L). destruct G as [G|(z & Hz & K)]; [lia|].
    rewrite Hi, Hy in Hz. injection Hz as <-. rewrite irrefl in K. discriminate.
Qed.

Lemma canon_step s : s <> [] -> exists p, p < length s /\ lexicographically_canonicalize eqb ltb s = Ok (rotation s p) /\
  (forall j, j < length s -> j <> p -> precedes ltb s p j) /\ (p = 0 \/ lex (less ltb) (rotation s p) s).
Proof.
  intros Hs. destruct (C69_rotation A eqb ltb s He Ho Hs) as (p & Hp & E & H). exists p. split; [exact Hp|]. split; [exact E|]. split; [exact H|].
  destruct (Nat.eq_dec p 0) as [->|Hn]; [now left|]. right. apply precedes_lex, H; lia.
Qed.
Lemma rotation_0 (s : list A) : rotation s 0 = s.
Proof. unfold rotation. cbn [skipn firstn]. apply app_nil_r. Qed.

Lemma smaller s t : lexicographically_canonicalize eqb ltb s = Ok t -> t = s \/ lex (less ltb) t s.
Proof.
  intros E. destruct s as [|x s]; [discriminate|]. destruct (canon_step (x :: s)) as (p & Hp & E' & _ & H); [discriminate|].
  rewrite E' in E. injection E as <-. destruct H as [->|H]; [left; apply rotation_0|now right].
Qed.

Lemma stays s : s <> [] -> lexicographically_canonicalize eqb ltb s = Ok s <-> forall j, 0 < j < length s -> precedes ltb s 0 j.
Proof.
  intros Hs. destruct (canon_step s Hs) as (p & Hp & E & H & C). rewrite E. split.
  - intros K. injection K as K. destruct C as [->|C]; [intros j Hj; apply H; lia|]. rewrite K in C. destruct (lexR_irrefl ltb irrefl _ C).
  - intros K. destruct (Nat.eq_dec p 0) as [->|Hn]; [now rewrite rotation_0|]. destruct (precedes_asym s p 0); [apply H; lia|apply K; lia].
Qed.

Lemma least_stays s : s <> [] -> (forall k, k < length s -> lex_le ltb s (rotation s k)) -> lexicographically_canonicalize eqb ltb s = Ok s.
Proof.
  intros Hs H. destruct (canon_step s Hs) as (p & Hp & E & _ & C). rewrite E. destruct C as [->|C]; [now rewrite rotation_0|].
  destruct (le_not_lex _ _ (H p Hp) C).
Qed.

Lemma lex_le_refl : forall a : list A, lex_le ltb a a.
Proof. induction a; cbn [lex_le]; auto. Qed.
Lemma guarded w M : (forall x, In x w -> ltb x M = true) ->
  exists p, p <= length w /\ lexicographically_canonicalize eqb ltb (w ++ [M]) = Ok (rotation (w ++ [M]) p) /\
    forall k, k <= length w -> lex_le ltb (rotation (w ++ [M]) p) (rotation (w ++ [M]) k).
Proof.
  intros HM. destruct (canon_step (w ++ [M])) as (p & Hp & E & H & _); [destruct w; discriminate|].
  assert (Hl : length (w ++ [M]) = S (length w)) by (rewrite app_length; cbn [length]; lia). rewrite Hl in *.
  exists p. split; [lia|]. split; [exact E|]. intros k Hk. destruct (Nat.eq_dec k p) as [->|Hn]; [apply lex_le_refl|].
  destruct (H k ltac:(lia) Hn) as (m & x & Hx & Hi & C). pose proof (nth_lt _ _ _ Hx) as L. rewrite Hl in *. destruct C as [C|(y & Hy & Hlt)].
  - exfalso. destruct m as [|m]; [lia|]. specialize (Hi m ltac:(lia)). replace (k + m) with (length w) in Hi by lia.
    rewrite (nth_error_app1 w [M] (n := p + m)), (nth_error_app2 w [M] (n := length w)), Nat.sub_diag in Hi by lia. cbn [nth_error] in Hi.
    apply nth_error_In, HM in Hi. rewrite irrefl in Hi. discriminate.
  - pose proof (nth_lt _ _ _ Hy) as L'. rewrite Hl in L'. apply lex_then_le, (lex_at m _ _ x y); [|rewrite nth_rotation by lia; exact Hx|rewrite nth_rotation by lia; exact Hy|exact Hlt].
    intros i Hm. rewrite !nth_rotation by lia. now apply Hi.
Qed.

(* rotations of rotations *)
Definition turned (s t : list A) : Prop := exists a b, s = a ++ b /\ t = b ++ a.
Lemma turned_rotation s p : turned s (rotation s p).
Proof. exists (firstn p s), (skipn p s). split; [now rewrite firstn_skipn|reflexivity]. Qed.
Lemma app_split (a b c d : list A) : a ++ b = c ++ d -> (exists e, a = c ++ e /\ d = e ++ b) \/ (exists e, c = a ++ e /\ b = e ++ d).
Proof.
  revert c. induction a as [|x a IH]; intros c H; [right; exists c; auto|]. destruct c as [|y c]; [left; exists (x :: a); auto|].
  cbn [app] in H. injection H as -> H. destruct (IH c H) as [(e & -> & ->)|(e & -> & ->)]; [left|right]; exists e; auto.
Qed.
Lemma turned_trans s t u : turned s t -> turned t u -> turned s u.
Proof.
  intros (a & b & -> & ->) (c & d & E & ->). destruct (app_split _ _ _ _ E) as [(e & -> & ->)|(e & -> & ->)].
  - exists (a ++ c), e. split; [now rewrite app_assoc|now rewrite <- app_assoc].
  - exists e, (d ++ b). split; [now rewrite app_assoc|now rewrite <- app_assoc].
Qed.
Lemma turned_in s t : s <> [] -> turned s t -> exists p, p < length s /\ t = rotation s p.
Proof.
  intros Hs (a & b & -> & ->). destruct b as [|x b].
  - exists 0. rewrite rotation_0, app_nil_r in *. split; [destruct a; [congruence|cbn [length]; lia]|reflexivity].
  - exists (length a). split; [rewrite app_length; cbn [length]; lia|]. unfold rotation. now rewrite skipn_app_len, firstn_app_len.
Qed.

Lemma times_fixed n s : lexicographically_canonicalize eqb ltb s = Ok s -> canonicalize_times eqb ltb n s = Ok s.
Proof. intros E. induction n as [|n IH]; cbn [canonicalize_times]; [reflexivity|]. rewrite E. exact IH. Qed.
Lemma chain : forall n s, s <> [] -> exists t, canonicalize_times eqb ltb n s = Ok t /\ turned s t /\
  (lexicographically_canonicalize eqb ltb t = Ok t \/
   exists l, length l = S n /\ NoDup l /\ (forall x, In x l -> turned s x) /\ (forall x, In x l -> x = s \/ lex (less ltb) x s)).
Proof.
  induction n as [|n IH]; intros s Hs; cbn [canonicalize_times].
  - exists s. split; [reflexivity|]. split; [exists [], s; now rewrite app_nil_r|]. right. exists [s]. split; [reflexivity|].
    split; [constructor; [auto|constructor]|]. split; intros x [<-|[]]; [exists [], s; now rewrite app_nil_r|now left].
  - destruct (canon_step s Hs) as (p & Hp & E & _ & C). rewrite E. cbn [bind]. pose proof (turned_rotation s p) as Tp.
    assert (Hr : rotation s p <> []) by (intros K; unfold rotation in K; apply app_eq_nil in K as (K & K'); apply (f_equal (@length A)) in K; rewrite skipn_length in K; cbn [length] in K; lia).
    destruct (IH _ Hr) as (t & Et & Tt & D). exists t. split; [exact Et|]. split; [exact (turned_trans _ _ _ Tp Tt)|].
    destruct D as [D|(l & Ll & Nl & Tl & Dl)]; [now left|]. destruct C as [->|C].
    + left. rewrite rotation_0 in *. rewrite (times_fixed n s E) in Et. injection Et as <-. exact E.
    + right. exists (s :: l). split; [cbn [length]; lia|]. split; [constructor; [|exact Nl]|split].
      * intros K. destruct (Dl s K) as [K'|K']; [rewrite <- K' in C; exact (lexR_irrefl ltb irrefl _ C)|].
        exact (lexR_irrefl ltb irrefl _ (lexR_trans ltb trans _ _ _ C K')).
      * intros x [<-|K]; [exists [], s; now rewrite app_nil_r|]. exact (turned_trans _ _ _ Tp (Tl x K)).
      * intros x [<-|K]; [now left|]. right. destruct (Dl x K) as [->|K']; [exact C|exact (lexR_trans ltb trans _ _ _ K' C)].
Qed.

Lemma settles s : s <> [] -> exists p, p < length s /\ canonicalize_times eqb ltb (length s) s = Ok (rotation s p) /\
  lexicographically_canonicalize eqb ltb (rotation s p) = Ok (rotation s p).
Proof.
  intros Hs. destruct (chain (length s) s Hs) as (t & E & Ht & D). destruct (turned_in s t Hs Ht) as (p & Hp & ->). exists p. split; [exact Hp|]. split; [exact E|].
  destruct D as [D|(l & Ll & Nl & Tl & _)]; [exact D|]. exfalso.
  assert (K : length l <= length (map (rotation s) (seq 0 (length s)))).
  { apply NoDup_incl_length; [exact Nl|]. intros x Hx. destruct (turned_in s x Hs (Tl x Hx)) as (q & Hq & ->). apply in_map, in_seq. lia. }
  rewrite map_length, seq_length in K. lia.
Qed.
Lemma times_add m n s : canonicalize_times eqb ltb (m + n) s = (t <- canonicalize_times eqb ltb m s ;; canonicalize_times eqb ltb n t).
Proof.
  revert s. induction m as [|m IH]; intros s; cbn [Nat.add canonicalize_times bind]; [reflexivity|].
  destruct (lexicographically_canonicalize eqb ltb s); cbn [bind]; [apply IH|reflexivity..].
Qed.
Lemma settles_all s : s <> [] -> exists p, p < length s /\ lexicographically_canonicalize eqb ltb (rotation s p) = Ok (rotation s p) /\
  forall n, length s <= n -> canonicalize_times eqb ltb n s = Ok (rotation s p).
Proof.
  intros Hs. destruct (settles s Hs) as (p & Hp & E & F). exists p. split; [exact Hp|]. split; [exact F|]. intros n Hn.
  replace n with (length s + (n - length s)) by lia. rewrite times_add, E. now apply times_fixed.
Qed.
Lemma guarded_again w M : (forall x, In x w -> ltb x M = true) ->
  exists p, p <= length w /\ lexicographically_canonicalize eqb ltb (w ++ [M]) = Ok (rotation (w ++ [M]) p) /\
    (forall k, k <= length w -> lex_le ltb (rotation (w ++ [M]) p) (rotation (w ++ [M]) k)) /\
    lexicographically_canonicalize eqb ltb (rotation (w ++ [M]) p) = Ok (rotation (w ++ [M]) p).
Proof.
  intros HM. destruct (guarded w M HM) as (p & Hp & E & H). exists p. split; [exact Hp|]. split; [exact E|]. split; [exact H|].
  assert (Hl : length (w ++ [M]) = S (length w)) by (rewrite app_length; cbn [length]; lia).
  assert (Hr : length (rotation (w ++ [M]) p) = S (length w)) by (unfold rotation; rewrite app_length, skipn_length, firstn_length; lia).
  apply least_stays; [destruct (rotation (w ++ [M]) p); discriminate|]. intros k Hk.
  destruct (turned_in (w ++ [M]) (rotation (rotation (w ++ [M]) p) k)) as (q & Hq & ->).
  - destruct w; discriminate.
  - eapply turned_trans; apply turned_rotation.
  - apply H. lia.
Qed.
End Canon.
