(* C28: the prefix trie. *)
From Verif Require Import Base Trie_Model Trie_Spec Trie_Proofs.

Definition abc : list (list ascii * nat) := [(str "ab", 1); (str "cde", 2); (str "c", 3)].

(* Any sequence of insertions succeeds, and find_prefix then answers exactly
   whether the argument is a non-empty prefix of an inserted key. *)
Theorem C28_find_prefix :
  forall (K V : Type) (keq : K -> K -> bool), (forall a b, keq a b = true <-> a = b) ->
  forall hist : list (list K * V), exists t, insert_all keq empty_trie hist = Ok t /\
    forall p, exists b, find_prefix keq t p = Ok b /\ (b = true <-> stored_prefix hist p).
Proof.
  intros K V keq Hk hist. destruct (insert_all_ok keq Hk hist) as (t & E & Hr). exists t. split; auto.
  intros p. apply holds_ex. apply find_prefix_ok; auto.
Qed.
Print Assumptions C28_find_prefix.

Example C28_find_prefix_ex :
  (t <- insert_all Ascii.eqb empty_trie abc ;; find_prefix Ascii.eqb t (str "cd")) = Ok true /\
  (t <- insert_all Ascii.eqb empty_trie abc ;; find_prefix Ascii.eqb t (str "b")) = Ok false.
Proof. split; vm_compute; reflexivity. Qed.

(* find succeeds only on prefixes of inserted keys, and only when some inserted key
   differs from the argument at most in its last element; the value returned is
   the one given with the last such key. *)
Theorem C28_find :
  forall (K V : Type) (keq : K -> K -> bool), (forall a b, keq a b = true <-> a = b) ->
  forall (hist : list (list K * V)) t, insert_all keq empty_trie hist = Ok t ->
  forall k, exists r, find keq t k = Ok r /\
    match r with
    | Some v => stored_prefix hist k /\ last_value (sibling k) hist v
    | None => ~ (stored_prefix hist k /\ exists k' v, In (k', v) hist /\ sibling k k')
    end.
Proof.
  intros K V keq Hk hist t E k. destruct (insert_all_ok keq Hk hist) as (t' & E' & Hr).
  assert (t' = t) by congruence. subst. apply holds_ex. apply find_ok; auto.
Qed.
Print Assumptions C28_find.

(* found with the value of its sibling "ac"; "a" is no sibling of anything stored *)
Example C28_find_sibling_ex : let h := [(str "ab", 1); (str "ac", 2)] in
  (t <- insert_all Ascii.eqb empty_trie h ;; find Ascii.eqb t (str "ab")) = Ok (Some 2) /\
  (t <- insert_all Ascii.eqb empty_trie h ;; find Ascii.eqb t (str "a")) = Ok None.
Proof. split; vm_compute; reflexivity. Qed.

(* In particular an inserted key is always found, and its own value comes back
   when no sibling was inserted after it. *)
Theorem C28_find_inserted :
  forall (K V : Type) (keq : K -> K -> bool), (forall a b, keq a b = true <-> a = b) ->
  forall (h1 h2 : list (list K * V)) k v t, k <> [] ->
  insert_all keq empty_trie (h1 ++ (k, v) :: h2) = Ok t ->
  exists v', find keq t k = Ok (Some v') /\
    ((forall k' v'', In (k', v'') h2 -> ~ sibling k k') -> v' = v).
Proof.
  intros K V keq Hk h1 h2 k v t Hne E.
  assert (sibling k k) as Hs.
  { destruct (exists_last Hne) as (w & c & ->). exists w, c, c. auto. }
  destruct (C28_find K V keq Hk _ t E k) as ([v'|] & Ef & Hr).
  - exists v'. split; auto. intros Hlast. destruct Hr as (_ & a & k1 & b & Eh & Hk1 & Hno).
    destruct (Nat.lt_trichotomy (length h1) (length a)) as [Hlt|[Heq|Hgt]].
    + exfalso. apply (Hlast k1 v'); auto.
      assert (nth_error (h1 ++ (k, v) :: h2) (length a) = Some (k1, v')) as En.
      { rewrite Eh, nth_error_app2, Nat.sub_diag by lia. reflexivity. }
      rewrite nth_error_app2 in En by lia. destruct (length a - length h1) as [|d] eqn:Ed; [lia|].
      simpl in En. eapply nth_error_In; eauto.
    + apply (f_equal (fun l => nth_error l (length h1))) in Eh.
      rewrite nth_error_app2, Nat.sub_diag in Eh by lia. rewrite Heq, nth_error_app2, Nat.sub_diag in Eh by lia.
      simpl in Eh. congruence.
    + exfalso. apply (Hno k v); auto.
      assert (nth_error (a ++ (k1, v') :: b) (length h1) = Some (k, v)) as En.
      { rewrite <- Eh, nth_error_app2, Nat.sub_diag by lia. reflexivity. }
      rewrite nth_error_app2 in En by lia. destruct (length h1 - length a) as [|d] eqn:Ed; [lia|].
      simpl in En. eapply nth_error_In; eauto.
  - exfalso. apply Hr. split.
    + split; auto. exists k, v. rewrite in_app_iff. split; [simpl; auto|]. exists []. now rewrite app_nil_r.
    + exists k, v. rewrite in_app_iff. simpl. auto.
Qed.
Print Assumptions C28_find_inserted.

Example C28_find_ex :
  (t <- insert_all Ascii.eqb empty_trie abc ;; find Ascii.eqb t (str "cde")) = Ok (Some 2) /\
  (t <- insert_all Ascii.eqb empty_trie abc ;; find Ascii.eqb t (str "cd")) = Ok None.
Proof. split; vm_compute; reflexivity. Qed.

(* The plain reading of find (succeeds iff inserted, own value) is false: the value
   is stored one node too early. *)
Theorem C28_find_refuted :
  (exists t : trie ascii nat, insert_all Ascii.eqb empty_trie [(str "ab", 1); (str "ac", 2)] = Ok t /\
     find Ascii.eqb t (str "ab") = Ok (Some 2)) /\
  (exists t : trie ascii nat, insert_all Ascii.eqb empty_trie [(str "ab", 1); (str "acd", 2)] = Ok t /\
     find Ascii.eqb t (str "ac") = Ok (Some 1)).
Proof. split; eexists; split; vm_compute; reflexivity. Qed.
Print Assumptions C28_find_refuted.

(* The destructor deletes every node exactly once: nothing is deleted twice
   (that would be undefined) and no node is left. *)
Theorem C28_destroy :
  forall (K V : Type) (keq : K -> K -> bool), (forall a b, keq a b = true <-> a = b) ->
  forall (hist : list (list K * V)) t, insert_all keq empty_trie hist = Ok t ->
  forall fuel, length (mem t) < fuel -> destroy fuel t = Ok (repeat None (length (mem t))).
Proof.
  intros K V keq Hk hist t E fuel Hf. destruct (insert_all_ok keq Hk hist) as (t' & E' & Hr).
  assert (t' = t) by congruence. subst. eapply destroy_ok; eauto.
Qed.
Print Assumptions C28_destroy.

Example C28_destroy_ex :
  (t <- insert_all Ascii.eqb empty_trie abc ;; destroy 10 t) = Ok (repeat None 6).
Proof. vm_compute. reflexivity. Qed.

(* A trie has no copy constructor of its own (19757-19856): destroying a copy and
   then the original deletes the nodes twice. *)
Theorem C28_copy_refuted :
  forall (K V : Type) (keq : K -> K -> bool), (forall a b, keq a b = true <-> a = b) ->
  forall (hist : list (list K * V)) t, insert_all keq empty_trie hist = Ok t -> (exists k v, In (k, v) hist /\ k <> []) ->
  forall fuel, length (mem t) < fuel ->
    (h <- destroy fuel t ;; destroy fuel (Trie h (head t))) = UB.
Proof.
  intros K V keq Hk hist t E (k & v & Hin & Hne) fuel Hf.
  rewrite (C28_destroy K V keq Hk hist t E fuel Hf). cbn [bind].
  destruct (insert_all_ok keq Hk hist) as (t' & E' & Hr). assert (t' = t) by congruence. subst.
  destruct Hr as [(-> & Hall)|(Hh & _ & ws & (Hl & _ & H0 & _) & _)]; [apply Hall in Hin; contradiction|].
  unfold destroy. cbn [head mem]. rewrite Hh. destruct fuel as [|f]; [lia|].
  rewrite delete_S. unfold deref. rewrite (rd_nth _ 0 None); [reflexivity|].
  rewrite nth_error_repeat; [reflexivity|]. rewrite Hl. apply nth_error_Some. congruence.
Qed.
Print Assumptions C28_copy_refuted.

Example C28_copy_refuted_ex : (t <- insert_all Nat.eqb empty_trie [([1; 2], 7)] ;; h <- destroy 10 t ;; destroy 10 (Trie h (head t))) = UB /\ (t <- insert_all Nat.eqb empty_trie [([1; 2], 7)] ;; h <- destroy 10 t ;; Ok tt) = Ok tt.
Proof. split; vm_compute; reflexivity. Qed.
