(* C113: the hex viewer of strtk_hexview.cpp. *)
From Verif Require Import Base Codec_Spec Codec_Model Hexview_Model Hexview_Spec Hexview_Proofs.
Local Open Scope nat_scope.

(* What the buffers hold at the start does not matter, and there is exactly one view of an
   input. *)
Theorem C113_view : forall input buffer hex_buffer, length buffer = 16 -> length hex_buffer = 32 ->
  exists t, hexview input buffer hex_buffer = Ok t /\ view " " 0 input t /\ forall u, view " " 0 input u -> u = t.
Proof.
  intros input b h Hb Hh. destruct (hexview_ok input b h Hb Hh) as (t & Hv & E). exists t. split; [exact E|]. split; [exact Hv|].
  intros u Hu. symmetry. exact (view_unique _ _ _ _ Hv _ Hu).
Qed.
Print Assumptions C113_view.
Example C113_view_case : hexview (str "0123456789abcdef" ++ [zero; "255"%char; "z"%char]) (repeat "?"%char 16) (repeat "!"%char 32) =
  Ok (str "0000000000 30313233343536373839616263646566 0123456789abcdef" ++ "010"%char ::
      str "0000000010 00FF7A                           ..z" ++ ["010"%char]).
Proof. vm_compute. reflexivity. Qed.

(* Where each byte is shown, for inputs of at most 2^40 bytes. *)
Theorem C113_columns : forall input buffer hex_buffer t, length buffer = 16 -> length hex_buffer = 32 ->
  hexview input buffer hex_buffer = Ok t -> (N.of_nat (length input) <= 2 ^ 40)%N ->
  length t = 61 * (length input / 16) + (if length input mod 16 =? 0 then 0 else 45 + length input mod 16) /\
  forall i c, nth_error input i = Some c ->
    nth_error t (61 * (i / 16) + 11 + 2 * (i mod 16)) = Some (hex_digit (N_of_ascii c / 16)) /\
    nth_error t (61 * (i / 16) + 11 + 2 * (i mod 16) + 1) = Some (hex_digit (N_of_ascii c mod 16)) /\
    nth_error t (61 * (i / 16) + 44 + i mod 16) = Some (shown c).
Proof.
  intros input b h t Hb Hh E L. destruct (hexview_ok input b h Hb Hh) as (t' & Hv & E'). rewrite E in E'. injection E' as <-.
  exact (view_columns _ _ _ _ Hv L).
Qed.
Print Assumptions C113_columns.
Example C113_columns_case : exists t, hexview (str "0123456789abcdefxyz") (repeat "?"%char 16) (repeat "!"%char 32) = Ok t /\
  length t = 109 /\ nth_error t (61 + 11 + 2 * 2) = Some "7"%char /\ nth_error t (61 + 44 + 2) = Some "z"%char.
Proof. eexists. split; [vm_compute; reflexivity|]. repeat split. Qed.

(* Nothing is lost: different inputs have different views. *)
Theorem C113_lossless : forall s s' b h b' h' t, length b = 16 -> length h = 32 -> length b' = 16 -> length h' = 32 ->
  (N.of_nat (length s) <= 2 ^ 40)%N -> (N.of_nat (length s') <= 2 ^ 40)%N ->
  hexview s b h = Ok t -> hexview s' b' h' = Ok t -> s = s'.
Proof.
  intros s s' b h b' h' t Hb Hh Hb' Hh' L L' E E'.
  destruct (C113_columns _ _ _ _ Hb Hh E L) as [A C]. destruct (C113_columns _ _ _ _ Hb' Hh' E' L') as [A' C'].
  assert (El : length s = length s').
  { rewrite A in A'. pose proof (Nat.div_mod (length s) 16). pose proof (Nat.div_mod (length s') 16).
    pose proof (Nat.mod_upper_bound (length s) 16). pose proof (Nat.mod_upper_bound (length s') 16).
    destruct (Nat.eqb_spec (length s mod 16) 0), (Nat.eqb_spec (length s' mod 16) 0); lia. }
  apply nth_error_ext. intros i. destruct (nth_error s i) as [c|] eqn:Ec.
  - assert (i < length s) by (eapply nth_error_some_lt; eauto).
    destruct (nth_error s' i) as [d|] eqn:Ed; [|apply nth_error_None in Ed; lia]. f_equal.
    destruct (C _ _ Ec) as (U & V & _), (C' _ _ Ed) as (U' & V' & _). rewrite U in U'. rewrite V in V'.
    assert (HD : forall m n, (m < 16)%N -> (n < 16)%N -> hex_digit m = hex_digit n -> m = n).
    { intros m n Hm Hn Em. 
      assert (K : forall k, (k < 16)%N -> hex_value (hex_digit k) = Some k).
      { intros k Hk. assert (Hi : In k (map N.of_nat (seq 0 16))) by (apply in_map_iff; exists (N.to_nat k); split; [lia|apply in_seq; lia]).
        cbn in Hi. repeat (destruct Hi as [<-|Hi]; [reflexivity|]). contradiction. }
      pose proof (K m Hm) as Km. rewrite Em, (K n Hn) in Km. now injection Km. }
    pose proof (N_ascii_bounded c). pose proof (N_ascii_bounded d).
    assert (E1 : (N_of_ascii c / 16 = N_of_ascii d / 16)%N).
    { apply HD; [apply N.div_lt_upper_bound; lia|apply N.div_lt_upper_bound; lia|congruence]. }
    assert (E2 : (N_of_ascii c mod 16 = N_of_ascii d mod 16)%N).
    { apply HD; [apply N.mod_upper_bound; lia|apply N.mod_upper_bound; lia|congruence]. }
    rewrite <- (ascii_N_embedding c), <- (ascii_N_embedding d). f_equal.
    rewrite (N.div_mod (N_of_ascii c) 16), (N.div_mod (N_of_ascii d) 16), E1, E2 by lia. reflexivity.
  - apply nth_error_None in Ec. symmetry. apply nth_error_None. lia.
Qed.
Print Assumptions C113_lossless.
Example C113_lossless_case :
  hexview (str "a.") (repeat "?"%char 16) (repeat "!"%char 32) <> hexview (str "a ") (repeat "?"%char 16) (repeat "!"%char 32).
Proof. vm_compute. discriminate. Qed.

(* Refuted: an address has ten hexadecimal digits.  The fill character is set with the first
   full line only. *)
Theorem C113_address_refuted : ~ (forall input buffer hex_buffer t, length buffer = 16 -> length hex_buffer = 32 ->
  hexview input buffer hex_buffer = Ok t -> input <> [] -> Forall upper_hex (firstn 10 t)).
Proof.
  intros H. specialize (H (str "x") (repeat "?"%char 16) (repeat "!"%char 32) (str "         0 78                               x" ++ ["010"%char]) eq_refl eq_refl eq_refl).
  assert (F : Forall upper_hex (firstn 10 (str "         0 78                               x" ++ ["010"%char]))) by (apply H; discriminate).
  cbn in F. inversion F as [|c l U _]; subst. unfold upper_hex in U. cbn in U. decompose [or] U; discriminate || contradiction.
Qed.
Print Assumptions C113_address_refuted.
Example C113_address_case : hexview (str "hello world") (repeat "?"%char 16) (repeat "!"%char 32) =
  Ok (str "         0 68656C6C6F20776F726C64           hello.world" ++ ["010"%char]).
Proof. vm_compute. reflexivity. Qed.
