(* C78, C79: owned pointers in containers; key and value lists. *)
From Verif Require Import Base Cont_Model Cont_Spec Cont_Proofs.
From Coq Require Import Sorted Permutation.

(* four objects *)
Definition four : nat -> option nat := fun a => if a <? 4 then Some (10 + a) else None.
Definition self (p : option nat) : option nat := p.
(* the value pointed to is even; looks at the object *)
Definition even_value (h : nat -> option nat) (p : option nat) : outcome bool :=
  match p with
  | None => Ok false
  | Some a => match h a with Some v => Ok (Nat.even v) | None => UB end
  end.

(* C78: delete_all deletes each object of the container exactly once, touches no other object, and
   leaves the container empty. *)
Theorem C78_delete_all : forall (V E : Type) (proj : E -> option nat) cont (h : nat -> option V),
  owns h (map proj cont) ->
  exists h', delete_all proj cont h = Ok ([], h') /\ without h (addresses (map proj cont)) h'.
Proof. exact @delete_all_ok. Qed.
Print Assumptions C78_delete_all.
Example C78_delete_all_ex :
  owns four (map self [Some 2; None; Some 0]) /\
  match delete_all self [Some 2; None; Some 0] four with
  | Ok (c, h) => c = [] /\ map h [0; 1; 2; 3] = [None; Some 11; None; Some 13]
  | _ => False
  end.
Proof.
  split; [|vm_compute; auto]. split; cbn.
  - repeat constructor; cbn; intuition lia.
  - intros a [<-|[<-|[]]]; discriminate.
Qed.

(* it is defined for exactly the containers that own their objects *)
Theorem C78_delete_all_iff : forall (V E : Type) (proj : E -> option nat) cont (h : nat -> option V),
  (exists r, delete_all proj cont h = Ok r) <-> owns h (map proj cont).
Proof. exact @delete_all_iff. Qed.
Print Assumptions C78_delete_all_iff.
Example C78_delete_all_iff_ex : delete_all self [Some 2; Some 9] four = UB.
Proof. vm_compute. reflexivity. Qed.

(* the same address twice is deleted twice *)
Theorem C78_delete_all_shared_refuted : exists cont : list (option nat),
  (forall a, In (Some a) cont -> four a <> None) /\ delete_all self cont four = UB.
Proof.
  exists [Some 1; Some 1]. split; [|vm_compute; reflexivity].
  intros a [H|[H|[]]]; injection H as <-; discriminate.
Qed.
Print Assumptions C78_delete_all_shared_refuted.

(* delete_if deletes exactly the objects of the elements the predicate accepts, keeps the others in
   their order, and shows the predicate living objects only. *)
Theorem C78_delete_if : forall (V E : Type) (proj : E -> option nat)
    (p : (nat -> option V) -> E -> outcome bool) (q : E -> option V -> bool) cont h,
  (forall h e, (forall a, proj e = Some a -> h a <> None) -> p h e = Ok (q e (pointee h (proj e)))) ->
  owns h (map proj cont) ->
  exists h', delete_if proj p cont h =
      Ok (filter (fun e => negb (q e (pointee h (proj e)))) cont, h') /\
    without h (addresses (map proj (filter (fun e => q e (pointee h (proj e))) cont))) h'.
Proof. exact @delete_if_ok. Qed.
Print Assumptions C78_delete_if.
Example C78_delete_if_ex :
  match delete_if self even_value [Some 2; Some 3; None; Some 0] four with
  | Ok (c, h) => c = [Some 3; None] /\ map h [0; 1; 2; 3] = [None; Some 11; None; Some 13]
  | _ => False
  end.
Proof. vm_compute. auto. Qed.

Theorem C78_delete_if_shared_refuted : exists cont : list (option nat),
  (forall a, In (Some a) cont -> four a <> None) /\ delete_if self even_value cont four = UB.
Proof.
  exists [Some 2; Some 2]. split; [|vm_compute; reflexivity].
  intros a [H|[H|[]]]; injection H as <-; discriminate.
Qed.
Print Assumptions C78_delete_if_shared_refuted.

(* C79: the keys of a map, in the order of the map, after what the sequence held. *)
Theorem C79_keys_sequence : forall (K T : Type) (m : list (K * T)) s,
  make_key_list_seq m s = Ok (s ++ map fst m).
Proof. intros. unfold make_key_list_seq. rewrite key_list_impl, fold_push. reflexivity. Qed.
Print Assumptions C79_keys_sequence.
Example C79_keys_sequence_ex : make_key_list_seq [(1, true); (4, false); (6, true)] [9; 9] = Ok [9; 9; 1; 4; 6].
Proof. vm_compute. reflexivity. Qed.

(* a set gains exactly the keys it had no equivalent of *)
Theorem C79_keys_set : forall (K T : Type) (lt : K -> K -> bool) (m : list (K * T)) s,
  strict_weak lt -> rising lt s ->
  exists r, make_key_list_set lt m s = Ok r /\ rising lt r /\ (forall x, In x s -> In x r) /\
    (forall x, In x r -> In x s \/ In x (map fst m)) /\
    (forall k, In k (map fst m) -> exists x, In x r /\ (x = k \/ (lt x k = false /\ lt k x = false))).
Proof.
  intros K T lt m s Hlt Hs. eexists. split; [apply key_list_impl|]. apply fold_set; assumption.
Qed.
Print Assumptions C79_keys_set.
Example C79_keys_set_ex :
  make_key_list_set Nat.ltb [(1, true); (4, false); (6, true)] [0; 4; 5] = Ok [0; 1; 4; 5; 6].
Proof. vm_compute. reflexivity. Qed.

Theorem C79_keys_multiset : forall (K T : Type) (lt : K -> K -> bool) (m : list (K * T)) s,
  strict_weak lt -> level_or_rising lt s ->
  exists r, make_key_list_multiset lt m s = Ok r /\ level_or_rising lt r /\ Permutation r (s ++ map fst m).
Proof.
  intros K T lt m s Hlt Hs. eexists. split; [apply key_list_impl|]. apply fold_multiset; assumption.
Qed.
Print Assumptions C79_keys_multiset.
Example C79_keys_multiset_ex :
  make_key_list_multiset Nat.ltb [(1, true); (4, false); (6, true)] [0; 4; 5] = Ok [0; 1; 4; 4; 5; 6].
Proof. vm_compute. reflexivity. Qed.

(* make_value_list appends the values under the key, in the order of the multimap, provided find
   returns the first of several equal keys and operator== says what the comparator says. *)
Theorem C79_values : forall (K T : Type) (lt eqb : K -> K -> bool) choose (m : list (K * T)) key out,
  strict_weak lt -> level_or_rising lt (map fst m) ->
  (forall a b, eqb a b = true <-> lt a b = false /\ lt b a = false) -> (forall n, choose n = 0) ->
  make_value_list lt eqb choose m key out = Ok (out ++ map snd (filter (fun kv => eqb key (fst kv)) m)).
Proof.
  intros K T lt eqb choose m key out Hlt Hm He Hc.
  assert (He' : forall a b, eqb a b = equivalent lt a b).
  { intros a b. unfold equivalent. specialize (He a b). destruct (eqb a b), (lt a b), (lt b a); cbn; intuition congruence. }
  rewrite (value_list lt Hlt eqb choose m key out He' Hm), Hc.
  rewrite (filter_ext (fun kv : K * T => eqb key (fst kv)) (fun kv => equivalent lt key (fst kv))) by (intros; apply He').
  destruct (0 <? _); reflexivity.
Qed.
Print Assumptions C79_values.
Example C79_values_ex :
  make_value_list Nat.ltb Nat.eqb (fun _ => 0) [(1, 10); (4, 40); (4, 41); (4, 42); (6, 60)] 4 [7] = Ok [7; 40; 41; 42] /\
  make_value_list Nat.ltb Nat.eqb (fun _ => 0) [(1, 10); (4, 40)] 3 [7] = Ok [7].
Proof. split; vm_compute; reflexivity. Qed.

(* Whatever find returns, only values under the key are written, in order, a suffix of them. *)
Theorem C79_values_suffix : forall (K T : Type) (lt eqb : K -> K -> bool) choose (m : list (K * T)) key out,
  strict_weak lt -> level_or_rising lt (map fst m) ->
  (forall a b, eqb a b = true <-> lt a b = false /\ lt b a = false) ->
  exists missed written, make_value_list lt eqb choose m key out = Ok (out ++ written) /\
    map snd (filter (fun kv => eqb key (fst kv)) m) = missed ++ written.
Proof.
  intros K T lt eqb choose m key out Hlt Hm He.
  assert (He' : forall a b, eqb a b = equivalent lt a b).
  { intros a b. unfold equivalent. specialize (He a b). destruct (eqb a b), (lt a b), (lt b a); cbn; intuition congruence. }
  rewrite (value_list lt Hlt eqb choose m key out He' Hm).
  rewrite (filter_ext (fun kv : K * T => eqb key (fst kv)) (fun kv => equivalent lt key (fst kv))) by (intros; apply He').
  eexists _, _. split; [reflexivity|]. symmetry. apply firstn_skipn.
Qed.
Print Assumptions C79_values_suffix.

Example C79_values_last_ex :
  make_value_list Nat.ltb Nat.eqb (fun n => n - 1) [(1, 10); (4, 40); (4, 41); (6, 60)] 4 [7] = Ok ([7] ++ [41]) /\
  map snd (filter (fun kv => Nat.eqb 4 (fst kv)) [(1, 10); (4, 40); (4, 41); (6, 60)]) = [40] ++ [41].
Proof. split; reflexivity. Qed.

(* The standard lets find return any of several equal keys; values are then missed. *)
Theorem C79_values_find_refuted : exists choose (m : list (nat * nat)) out,
  level_or_rising Nat.ltb (map fst m) /\
  make_value_list Nat.ltb Nat.eqb choose m 4 [] = Ok out /\
  out <> map snd (filter (fun kv => Nat.eqb 4 (fst kv)) m).
Proof.
  exists (fun n => n - 1), [(4, 40); (4, 41)], [41].
  split; [repeat constructor|]. split; [vm_compute; reflexivity|discriminate].
Qed.
Print Assumptions C79_values_find_refuted.
Example C79_values_suffix_ex :
  make_value_list Nat.ltb Nat.eqb (fun n => n - 1) [(1, 10); (4, 40); (4, 41); (6, 60)] 4 [7] = Ok [7; 41].
Proof. vm_compute. reflexivity. Qed.

(* A comparator coarser than == (here: equal up to the last digit) stops the walk at once. *)
Definition tens (a b : nat) : bool := a / 10 <? b / 10.
Theorem C79_values_equality_refuted : exists (m : list (nat * nat)) out,
  level_or_rising tens (map fst m) /\ In (4, 41) m /\
  make_value_list tens Nat.eqb (fun _ => 0) m 4 [] = Ok out /\ ~ In 41 out.
Proof.
  exists [(3, 40); (4, 41)], []. split; [repeat constructor|]. split; [cbn; auto|].
  split; [vm_compute; reflexivity|]. intros [].
Qed.
Print Assumptions C79_values_equality_refuted.

(* push_back with several values: a sequence gains them in argument order, a set the ones it has
   no equivalent of, a multiset all of them; clear leaves nothing. *)
Lemma push_back_fold : forall (T C : Type) (put : C -> T -> C) vs c, push_back_all put c vs = fold_left put vs c.
Proof. intros T C put vs. induction vs as [|v vs IH]; intros c; cbn; auto. Qed.
Theorem C93_push_back : forall (T : Type) (c vs : list T),
  push_back_all (fun c v => c ++ [v]) c vs = c ++ vs /\ clear (c ++ vs) = [].
Proof.
  intros T c vs. split; [|reflexivity]. rewrite push_back_fold. revert c.
  induction vs as [|v vs IH]; intros c; cbn [fold_left]; [symmetry; apply app_nil_r|]. rewrite IH, <- app_assoc. reflexivity.
Qed.
Print Assumptions C93_push_back.

Example C93_sequence_ex : push_back_all (fun c v => c ++ [v]) [5] [3; 1; 3] = [5; 3; 1; 3] /\ clear [5; 3; 1; 3] = [].
Proof. split; reflexivity. Qed.
Theorem C93_push_back_set : forall (K : Type) (lt : K -> K -> bool) s vs, strict_weak lt -> rising lt s ->
  let r := push_back_all (set_insert lt) s vs in
  rising lt r /\ (forall x, In x s -> In x r) /\ (forall x, In x r -> In x s \/ In x vs) /\
  (forall k, In k vs -> exists x, In x r /\ (x = k \/ (lt x k = false /\ lt k x = false))).
Proof. intros K lt s vs Hlt Hs. cbv zeta. rewrite push_back_fold. now apply fold_set. Qed.
Print Assumptions C93_push_back_set.

Example C93_set_ex : push_back_all (set_insert Nat.ltb) [2; 5] [3; 1; 3; 2] = [1; 2; 3; 5].
Proof. reflexivity. Qed.
Theorem C93_push_back_multiset : forall (K : Type) (lt : K -> K -> bool) s vs, strict_weak lt -> level_or_rising lt s ->
  let r := push_back_all (multiset_insert lt) s vs in level_or_rising lt r /\ Permutation r (s ++ vs).
Proof. intros K lt s vs Hlt Hs. cbv zeta. rewrite push_back_fold. now apply fold_multiset. Qed.
Print Assumptions C93_push_back_multiset.
Example C93_push_back_ex :
  push_back_all (fun c v => c ++ [v]) [5] [3; 1; 3] = [5; 3; 1; 3] /\
  push_back_all (set_insert Nat.ltb) [2; 5] [3; 1; 3] = [1; 2; 3; 5] /\
  push_back_all (multiset_insert Nat.ltb) [2; 5] [3; 1; 3] = [1; 2; 3; 3; 5].
Proof. repeat split. Qed.
