From Coq Require Import Sorting.Sorted.
From Verif Require Import Base Split_Model Split_Spec Split_Proofs Num_Model Num_Spec Num_Proofs Num_Proofs2 Num_Props Parse_Model Parse_Spec Parse_Spec2 Parse_Proofs Parse_Proofs2 Parse_Proofs3
  Parse_Props Text_Model Text_Spec Text_Spec2 Text_Proofs Text_Props Stl_Model Stl_Spec Stl_Proofs Stl_Props Tour_Model Tour_Spec Tour_Proofs.
Local Open Scope nat_scope.

Lemma join_texts d ws : join (fun x => x) d ws = separated d ws.
Proof. unfold join. rewrite join_onto_ok. cbn [app]. now rewrite map_id. Qed.

Lemma cut_example_ok r0 r1 s : r0 <= r1 -> (N.of_nat (length s) < 2 ^ 64)%N ->
  exists l, rotations s = Ok l /\
    cut_example r0 r1 s = Ok (separated [ascii_of_nat 10] (map (fun x => sub x (r0, Nat.min r1 (length x))) (filter (fun x => r0 <=? length x) l)) ++ [ascii_of_nat 10]).
Proof.
  intros Hr Hl. destruct (rotations_ok s) as (l & E & _ & H). exists l. split; [exact E|]. unfold cut_example. rewrite E. cbn [bind].
  rewrite join_texts. destruct (C57_cut r0 r1 l Hr) as [-> _]; [|reflexivity].
  apply Forall_forall. intros x Hx. apply In_nth_error in Hx as (i & Hi). destruct (H i x Hi) as [-> _]. exact Hl.
Qed.

Lemma split_lines_ok t word data : (N.of_nat (length data) < 2 ^ 31)%N -> forall is,
  Forall (fun i => (Z.of_nat i < 10 ^ 20)%Z) is ->
  exists ls, split_lines t word data is = Ok (concat ls) /\ length ls = length is /\
    forall k i, nth_error is k = Some i -> exists l, nth_error ls k = Some l /\
      (i = 0 -> l = []) /\
      (1 <= i -> exists r, successive (first_window (type_pred t) data i) 0 r /\ group_line word i (map (sub data) r) l).
Proof.
  intros Hd. induction is as [|i is IH]; intros Hf.
  - exists []. split; [reflexivity|]. split; [reflexivity|]. intros [|k]; discriminate.
  - inversion Hf as [|? ? Hi Hf']; subst. destruct (IH Hf') as (ls & E & El & H). cbn [split_lines].
    assert (G : exists toks n l, split_on_consecutive_type (N.of_nat i) t exactly_n data = Ok (toks, n) /\
      (if length toks =? 0 then Ok []
       else ti <- size_text i ;;
            Ok (ti ++ str " Consecutive " ++ word ++ str ": " ++ join (fun x => x) (str " ") (map (sub data) toks) ++ [newline])) = Ok l /\
      (i = 0 -> l = []) /\
      (1 <= i -> exists r, successive (first_window (type_pred t) data i) 0 r /\ group_line word i (map (sub data) r) l)).
    { destruct i as [|i].
      - exists [], 0, []. split; [reflexivity|]. split; [reflexivity|]. split; [auto|lia].
      - destruct (C42_split_on_consecutive_type (S i) t exactly_n data ltac:(lia) Hd) as (toks & Hs & Es).
        destruct (size_text_ok (S i) Hi) as (ti & Et & Ct). rewrite Et. cbn [bind]. destruct toks as [|r toks].
        + exists [], 0, []. split; [exact Es|]. split; [reflexivity|]. split; [lia|]. intros _. exists []. split; [exact Hs|reflexivity].
        + eexists _, _, _. split; [exact Es|]. split; [reflexivity|]. split; [lia|]. intros _. exists (r :: toks). split; [exact Hs|].
          rewrite join_texts. cbn [map group_line]. exists ti. split; [exact Ct|reflexivity]. }
    destruct G as (toks & n & l & E1 & E2 & H1 & H2). rewrite E1. cbn [bind]. rewrite E2. cbn [bind]. rewrite E. cbn [bind].
    exists (l :: ls). split; [reflexivity|]. split; [cbn; now rewrite El|].
    intros [|k] i' Ek; cbn [nth_error] in *; [|now apply H]. injection Ek as <-. eauto.
Qed.

(* ---- sets and lists in brackets ---- *)
Definition in_int (x : Z) : Prop := (-2147483647 <= x <= 2147483647)%Z.
Lemma in_int_range v : in_int v -> (lo t_int <= v <= hi t_int)%Z.
Proof. unfold in_int. change (lo t_int) with (-2147483648)%Z. change (hi t_int) with 2147483647%Z. lia. Qed.
Definition int_of (x : list ascii) : option Z := match conv_signed t_int n_int x 0%Z with Ok (true, v) => Some v | _ => None end.
Lemma int_canonical x v : in_int v -> canonical x v -> int_of x = Some v /\ behaves (conv_signed t_int n_int) 0%Z int_of x /\ text_of_int v = x.
Proof.
  intros Hv Hc. destruct C20_signed_round_trip as (_ & R & _ & _). destruct (R v (in_int_range v Hv)) as (y & Ef & Cy & Hp).
  pose proof (canonical_unique _ _ _ Hc Cy) as ->. unfold in_int in Hv.
  assert (E : conv_signed t_int n_int y 0%Z = Ok (true, v)).
  { unfold conv_signed. rewrite Hp by lia. reflexivity. }
  assert (O : int_of y = Some v) by (unfold int_of; now rewrite E).
  split; [exact O|]. split; [unfold behaves; now rewrite O|]. unfold text_of_int. now rewrite Ef.
Qed.

Lemma container_separated {T C} (conv : converter T) (d : T) (add : C -> T -> C) ok delim texts vs c :
  Forall (fun t => t <> [] /\ ~ In delim t) texts -> Forall2 (fun x v => ok x = Some v /\ behaves conv d ok x) texts vs ->
  parse_container conv d add [delim] (separated [delim] texts) 1 c = Ok (fold_left add vs c, length texts).
Proof.
  intros Ht Hv. destruct (compressed_separated [delim] [delim] texts) as (toks & H1 & H2).
  { discriminate. } { intros x; auto. }
  { eapply Forall_impl; [|exact Ht]. cbn. intros t [A1 A2]. split; [exact A1|]. intros x Hx [->|[]]. contradiction. }
  destruct (parse_container_ok conv d add ok [delim] (separated [delim] texts) 1 c toks H1) as (ws & W1 & W2).
  { apply Forall_forall. intros r Hr. apply (in_map (sub (separated [delim] texts))) in Hr. rewrite <- H2 in Hr.
    revert Hr. generalize (sub (separated [delim] texts) r). clear -Hv. intros y Hr. induction Hv as [|x v xs vs [A1 A2] Hv IH]; [destruct Hr|]. destruct Hr as [<-|Hr]; [exact A2|apply IH, Hr]. }
  rewrite W2. rewrite <- H2 in W1. assert (ws = vs) as ->.
  { clear -Hv W1. revert vs Hv. induction W1 as [|x v xs ws E W IH|x xs ws E W IH]; intros vs Hv; inversion Hv as [|? ? ? ? [A1 A2] Hv']; subst; auto.
    - f_equal; [congruence|auto].
    - congruence. }
  f_equal. f_equal. rewrite H2. now rewrite map_length.
Qed.

Lemma z_weak : strict_weak Z.ltb.
Proof. split; [intros; apply Z.ltb_irrefl|]. split; intros x y z; rewrite ?Z.ltb_lt, ?Z.ltb_ge; lia. Qed.

Lemma bracketize_example_ok xs texts words : Forall in_int xs -> Forall2 canonical texts xs ->
  Forall (fun w => w <> [] /\ ~ In " "%char w) words ->
  exists c ts, StronglySorted Z.lt c /\ (forall x, In x c <-> In x xs) /\ Forall2 canonical ts c /\
    bracketize_example (separated (str ",") texts) (separated (str " ") words) =
    Ok (concat (map (fun t => str "{" ++ t ++ str "}") ts) ++ [ascii_of_nat 10] ++
        concat (map (fun w => str "<" ++ w ++ str ">") words) ++ [ascii_of_nat 10]).
Proof.
  intros Hx Ht Hw. set (c := fold_left (set_insert Z.ltb) xs []).
  assert (Sc : set_with Z.ltb [] xs c) by (apply (set_all Z.ltb z_weak); constructor).
  assert (Hin : forall x, In x c <-> In x xs).
  { intros x. rewrite (C106_set_union Z Z.ltb [] xs c z_weak); [cbn; tauto| |exact Sc].
    intros a b Ha Hb. apply Z.ltb_ge in Ha, Hb. lia. }
  assert (Hc : Forall in_int c).
  { apply Forall_forall. intros x Hc. apply Hin in Hc. rewrite Forall_forall in Hx. auto. }
  assert (Hcan : Forall (fun x => canonical (text_of_int x) x) c).
  { eapply Forall_impl; [|exact Hc]. intros x Hi. destruct C20_signed_round_trip as (_ & R & _ & _).
    destruct (R x (in_int_range x Hi)) as (y & Ef & Cy & _). unfold text_of_int. now rewrite Ef. }
  exists c, (map text_of_int c). split.
  { destruct Sc as [Sc _]. unfold ascending in Sc. clear -Sc. induction Sc as [|a l S1 IH F]; constructor; auto.
    eapply Forall_impl; [|exact F]. cbn. intros b Hb. now apply Z.ltb_lt. }
  split; [exact Hin|]. split.
  { clear -Hcan. induction Hcan; cbn [map]; constructor; auto. }
  unfold bracketize_example.
  change (str ",") with [","%char]. change (str " ") with [" "%char].
  rewrite (container_separated (conv_signed t_int n_int) 0%Z (set_insert Z.ltb) int_of ","%char texts xs []).
  2:{ clear -Ht. induction Ht as [|x v xs vs Hcv H IH]; constructor; auto. destruct (canonical_chars _ _ Hcv) as [H1 H2].
      split; [exact H1|]. intros Hi. rewrite Forall_forall in H2. destruct (H2 _ Hi) as [E|E]; [discriminate|]. revert E. vm_compute. now intros []. }
  2:{ clear -Ht Hx. induction Ht as [|x v xs vs Hcv H IH]; constructor; inversion Hx; subst; auto.
      destruct (int_canonical x v) as (A1 & A2 & _); auto. }
  cbn [bind]. rewrite (container_separated conv_string [] (fun c v => c ++ [v]) Some " "%char words words []).
  2:{ exact Hw. }
  2:{ clear. induction words; constructor; auto. split; reflexivity. }
  cbn [bind]. fold c. rewrite !C57_bracketize. cbn [app].
  assert (Ef : forall (ws : list (list ascii)) acc, fold_left (fun c v => c ++ [v]) ws acc = acc ++ ws).
  { induction ws as [|w ws IH]; intros acc; cbn; [now rewrite app_nil_r|]. rewrite IH, <- app_assoc. reflexivity. }
  rewrite Ef. cbn [app]. rewrite map_map. reflexivity.
Qed.
