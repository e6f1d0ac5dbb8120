(* C104: the memory a token_grid reads and frees. *)
From Verif Require Import Base Split_Model Grid_Spec Grid_Model Grid_Rep Grid_Props Life_Model Life_Spec Life_Proofs.
Local Open Scope nat_scope.

(* C104 *)
Theorem C104_program : forall users u0 us cells0 cellss,
  leaves users u0 cells0 -> Forall2 (leaves users) us cellss ->
  exists b h1 t1 h t, construct users u0 = Ok (b, h1, t1) /\ run_uses h1 t1 us = Ok (h, t) /\
    untouched users h /\ grids_live users h <= 1 /\
    shows h t (last (cells0 :: cellss) []) /\ t_state t = not_cleared (last (u0 :: us) ClearAll) /\
    exists h', destroy h t = Ok h' /\ untouched users h' /\ grids_live users h' = 0.
Proof.
  intros users u0 us cells0 cellss H0 H. destruct (construct_ok _ _ _ H0) as (h1 & t1 & b & E1 & O1 & S1 & St1).
  destruct (uses_ok _ _ _ H _ _ _ O1 S1) as (h & t & E & O & S & St). exists b, h1, t1, h, t. split; [exact E1|]. split; [exact E|].
  destruct (owned_live _ _ _ O) as (U & L). split; [exact U|]. split; [exact L|]. split; [|split].
  - destruct cellss as [|c cs]; [exact S|]. change (last (cells0 :: c :: cs) []) with (last (c :: cs) []).
    rewrite (last_dummy c cs [] cells0). exact S.
  - destruct us as [|u us]; [inversion H; subst; cbn [run_uses] in E; injection E as <- <-; exact St1|]. apply St. discriminate.
  - exact (destroy_ok _ _ _ O).
Qed.
Print Assumptions C104_program.

Definition nl1 : list ascii := [ascii_of_nat 10].
Definition csv1 : options := Options 0 nl1 (str ",") false false.
Definition mem1 : heap := [Blk (str "a,b" ++ nl1 ++ str "c") false true].
Example C104_program_ex :
  (' (h1, t1) <- (' (_, h1, t1) <- construct mem1 (LoadMem 0 5 csv1) ;; Ok (h1, t1)) ;; cell h1 t1 1 0) = Ok (Some (str "c")) /\
  (' (h1, t1) <- (' (_, h1, t1) <- construct mem1 (LoadMem 0 5 csv1) ;; Ok (h1, t1)) ;;
   ' (h, t) <- run_uses h1 t1 [LoadFile (str "f") (Some (str "x,yz")) csv1; LoadFile (str "g") (Some (str "1,2,3")) csv1] ;;
   c <- cell h t 0 2 ;; d <- cell h t 1 0 ;; h' <- destroy h t ;; Ok (c, d, row_count (t_grid t), map b_live h, map b_live h')) =
    Ok (Some (str "3"), None, 1%N, [true; false; true], [true; false; false]).
Proof. vm_compute. auto. Qed.

(* When a file cannot be opened or is empty, load(file) after load(memory)
   deletes the caller's memory: undefined if it did not come from new[],
   otherwise it is gone behind the caller's back. *)
Theorem C104_user_memory_refuted : forall users a n o cells name content o' h t,
  leaves users (LoadMem a n o) cells -> content = None \/ content = Some [] ->
  construct users (LoadMem a n o) = Ok (true, h, t) ->
  exists b, nth_error users a = Some b /\
    if b_new b then exists h2 t2, load_file h t name content o' = Ok (false, h2, t2) /\ nth_error h2 a = Some (Blk (b_text b) true false)
    else load_file h t name content o' = UB.
Proof.
  intros users a n o cells name content o' h t Hl Hc E.
  apply (fail_after_mem users users make_empty a n o cells name content o' (owned_empty users) Hl Hc).
  destruct (use_ok _ _ _ _ _ (owned_empty users) Hl) as (h1 & t1 & E1 & _). rewrite E1. f_equal.
  rewrite (load_eq users a n o h1 t1 E1) in E. injection E as <- <-. reflexivity.
Qed.
Print Assumptions C104_user_memory_refuted.
Example C104_user_memory_ex :
  (' (h, t) <- (' (_, h, t) <- construct mem1 (LoadMem 0 5 csv1) ;; Ok (h, t)) ;;
   ' (_, h2, _) <- load_file h t (str "missing") None csv1 ;; Ok h2) = UB /\
  (' (h, t) <- (' (_, h, t) <- construct [Blk (str "a,b") true true] (LoadMem 0 3 csv1) ;; Ok (h, t)) ;;
   ' (_, h2, _) <- load_file h t (str "missing") None csv1 ;; Ok h2) = Ok [Blk (str "a,b") true false].
Proof. vm_compute. auto. Qed.

(* A failed load(file) after a successful one leaves the old rows in place,
   with tokens into memory that has been deleted. *)
Theorem C104_stale_refuted : forall users name text o cells name' content o' h t,
  leaves users (LoadFile name (Some text) o) cells -> content = None \/ content = Some [] ->
  construct users (LoadFile name (Some text) o) = Ok (true, h, t) ->
  exists h2 t2, load_file h t name' content o' = Ok (false, h2, t2) /\ t_state t2 = false /\
    row_count (t_grid t2) = N.of_nat (length cells) /\
    forall r c row x, nth_error cells r = Some row -> nth_error row c = Some x -> cell h2 t2 (N.of_nat r) (N.of_nat c) = UB.
Proof.
  intros users name text o cells name' content o' h t Hl Hc E.
  apply (fail_after_file users users make_empty name text o cells name' content o' (owned_empty users) Hl Hc).
  destruct (use_ok _ _ _ _ _ (owned_empty users) Hl) as (h1 & t1 & E1 & _). rewrite E1. f_equal.
  rewrite (load_eq_file users name (Some text) o h1 t1 E1) in E. injection E as <- <-. reflexivity.
Qed.
Print Assumptions C104_stale_refuted.
Example C104_stale_ex :
  (' (h, t) <- (' (_, h, t) <- construct [] (LoadFile (str "f") (Some (str "x,yz")) csv1) ;; Ok (h, t)) ;;
   ' (b, h2, t2) <- load_file h t (str "missing") None csv1 ;; Ok (b, row_count (t_grid t2))) = Ok (false, 1%N) /\
  (' (h, t) <- (' (_, h, t) <- construct [] (LoadFile (str "f") (Some (str "x,yz")) csv1) ;; Ok (h, t)) ;;
   ' (_, h2, t2) <- load_file h t (str "missing") None csv1 ;; cell h2 t2 0 1) = UB.
Proof. vm_compute. auto. Qed.
