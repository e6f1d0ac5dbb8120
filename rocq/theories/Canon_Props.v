(* C168: Calling lexicographically_canonicalize again. *)
From Verif Require Import Base Scan_Model Scan_Spec Scan_Proofs Scan_Props Comb_Spec Enum_Spec Multi_Model Multi_Proofs2 Canon_Model Canon_Proofs.
Local Open Scope nat_scope.

(* a call leaves the range as it is or makes it smaller *)
Theorem C168_smaller : forall (A : Type) (eqb ltb : A -> A -> bool) s t, (forall x y, eqb x y = true <-> x = y) -> total_order ltb ->
  lexicographically_canonicalize eqb ltb s = Ok t -> t = s \/ lex (less ltb) t s.
Proof. intros A eqb ltb s t He Ho. exact (smaller eqb ltb He Ho s t). Qed.
Print Assumptions C168_smaller.

Example C168_smaller_example : lexicographically_canonicalize Nat.eqb Nat.ltb [2; 1; 1; 3] = Ok [1; 1; 3; 2] /\ lex (less Nat.ltb) [1; 1; 3; 2] [2; 1; 1; 3].
Proof. split; [vm_compute; reflexivity|]. apply lex_lt. reflexivity. Qed.

(* it is left as it is exactly when each of its suffixes comes after it *)
Theorem C168_stays : forall (A : Type) (eqb ltb : A -> A -> bool) s, (forall x y, eqb x y = true <-> x = y) -> total_order ltb -> s <> [] ->
  lexicographically_canonicalize eqb ltb s = Ok s <-> forall j, 0 < j < length s -> precedes ltb s 0 j.
Proof. intros A eqb ltb s He Ho. exact (stays eqb ltb He Ho s). Qed.
Print Assumptions C168_stays.

Example C168_stays_example : lexicographically_canonicalize Nat.eqb Nat.ltb [1; 2; 1; 2; 1] = Ok [1; 2; 1; 2; 1] /\ precedes Nat.ltb [1; 2; 1; 2; 1] 0 2.
Proof. split; [vm_compute; reflexivity|]. exists 3, 2. split; [reflexivity|]. split; [|now left]. intros [|[|[|i]]] H; [reflexivity..|lia]. Qed.

(* a least rotation is left as it is *)
Theorem C168_least_stays : forall (A : Type) (eqb ltb : A -> A -> bool) s, (forall x y, eqb x y = true <-> x = y) -> total_order ltb -> s <> [] ->
  (forall k, k < length s -> lex_le ltb s (rotation s k)) -> lexicographically_canonicalize eqb ltb s = Ok s.
Proof. intros A eqb ltb s He Ho. exact (least_stays eqb ltb He Ho s). Qed.
Print Assumptions C168_least_stays.

Example C168_least_stays_example : lexicographically_canonicalize Nat.eqb Nat.ltb [1; 1; 2; 1; 1; 2] = Ok [1; 1; 2; 1; 1; 2] /\
  forall k, k < 6 -> lex_le Nat.ltb [1; 1; 2; 1; 1; 2] (rotation [1; 1; 2; 1; 1; 2] k).
Proof. split; [vm_compute; reflexivity|]. intros [|[|[|[|[|[|k]]]]]] H; cbn; try lia; repeat (auto; right; split; [reflexivity|]); auto. Qed.

(* with a last element above all others the first call gives the least rotation, and a second one changes nothing *)
Theorem C168_guarded : forall (A : Type) (eqb ltb : A -> A -> bool) w M, (forall x y, eqb x y = true <-> x = y) -> total_order ltb ->
  (forall x, In x w -> ltb x M = true) ->
  exists p, p <= length w /\ lexicographically_canonicalize eqb ltb (w ++ [M]) = Ok (rotation (w ++ [M]) p) /\
    (forall k, k <= length w -> lex_le ltb (rotation (w ++ [M]) p) (rotation (w ++ [M]) k)) /\
    lexicographically_canonicalize eqb ltb (rotation (w ++ [M]) p) = Ok (rotation (w ++ [M]) p).
Proof. intros A eqb ltb w M He Ho. exact (guarded_again eqb ltb He Ho w M). Qed.
Print Assumptions C168_guarded.

Example C168_guarded_example : lexicographically_canonicalize Nat.eqb Nat.ltb ([2; 1; 1; 2; 1] ++ [9]) = Ok [1; 1; 2; 1; 9; 2] /\
  rotation ([2; 1; 1; 2; 1] ++ [9]) 1 = [1; 1; 2; 1; 9; 2].
Proof. split; vm_compute; reflexivity. Qed.

(* after as many calls as there are elements no further call changes anything *)
Theorem C168_settles : forall (A : Type) (eqb ltb : A -> A -> bool) s, (forall x y, eqb x y = true <-> x = y) -> total_order ltb -> s <> [] ->
  exists p, p < length s /\ lexicographically_canonicalize eqb ltb (rotation s p) = Ok (rotation s p) /\
    forall n, length s <= n -> canonicalize_times eqb ltb n s = Ok (rotation s p).
Proof. intros A eqb ltb s He Ho. exact (settles_all eqb ltb He Ho s). Qed.
Print Assumptions C168_settles.

Example C168_settles_example : canonicalize_times Ascii.eqb char_less 1 (str "acaba") = Ok (str "abaac") /\
  canonicalize_times Ascii.eqb char_less 2 (str "acaba") = Ok (str "aacab") /\ canonicalize_times Ascii.eqb char_less 5 (str "acaba") = Ok (str "aacab").
Proof. repeat split; vm_compute; reflexivity. Qed.

(* one call is not enough, and even then two rotations of one text can end differently *)
Theorem C168_again_refuted :
  (exists s t, lexicographically_canonicalize Ascii.eqb char_less s = Ok t /\ lexicographically_canonicalize Ascii.eqb char_less t <> Ok t) /\
  (exists s k n, length s <= n /\ k < length s /\ canonicalize_times Ascii.eqb char_less n s <> canonicalize_times Ascii.eqb char_less n (rotation s k)).
Proof.
  split.
  - exists (str "acaba"), (str "abaac"). split; [vm_compute; reflexivity|]. intros H. vm_compute in H. discriminate.
  - exists (str "aba"), 2, 3. split; [cbn; lia|]. split; [cbn; lia|]. intros H. vm_compute in H. discriminate.
Qed.
Print Assumptions C168_again_refuted.

Example C168_again_example : canonicalize_times Ascii.eqb char_less 3 (str "aba") = Ok (str "aba") /\ canonicalize_times Ascii.eqb char_less 3 (str "aab") = Ok (str "aab") /\
  rotation (str "aba") 2 = str "aab".
Proof. repeat split; vm_compute; reflexivity. Qed.

(* the program of the examples, for all lists of non-empty texts: each line shows a text and its rotation *)
Theorem C168_program : forall texts, (forall s, In s texts -> s <> []) ->
  exists ts, canonicalize_list texts = Ok (concat (map (fun '(s, t) => s ++ str " --> " ++ t ++ [ascii_of_nat 10]) (combine texts ts)), ts) /\
    Forall2 (fun s t => exists p, p < length s /\ t = rotation s p /\ forall j, j < length s -> j <> p -> precedes char_less s p j) texts ts.
Proof.
  induction texts as [|s texts IH]; intros H.
  - exists []. split; [reflexivity|constructor].
  - destruct IH as (ts & E & F); [intros s' Hs; apply H; now right|].
    destruct (C69_rotation ascii Ascii.eqb char_less s Ascii.eqb_eq char_order) as (p & Hp & Ec & Hpr); [apply H; now left|].
    exists (rotation s p :: ts). split; [|constructor; eauto]. cbn [canonicalize_list]. rewrite Ec. cbn [bind]. rewrite E. cbn [bind].
    cbn [combine map concat]. now rewrite <- !app_assoc.
Qed.
Print Assumptions C168_program.

Example C168_program_example : canonicalize_list [str "xyzabcabc"; str "5678901234"] =
  Ok (str "xyzabcabc --> abcabcxyz" ++ [ascii_of_nat 10] ++ str "5678901234 --> 0123456789" ++ [ascii_of_nat 10], [str "abcabcxyz"; str "0123456789"]).
Proof. vm_compute. reflexivity. Qed.

Theorem C168_program_refuted : forall before after, (forall s, In s before -> s <> []) -> canonicalize_list (before ++ [] :: after) = UB.
Proof.
  induction before as [|s before IH]; intros after H; [reflexivity|]. cbn [app canonicalize_list].
  destruct (C69_rotation ascii Ascii.eqb char_less s Ascii.eqb_eq char_order) as (p & _ & -> & _); [apply H; now left|]. cbn [bind].
  rewrite IH; [reflexivity|]. intros s' Hs. apply H. now right.
Qed.
Print Assumptions C168_program_refuted.

Example C168_program_refuted_example : canonicalize_list [str "ba"; []; str "c"] = UB.
Proof. vm_compute. reflexivity. Qed.
