(* Proofs: every decimal notation is plain ASCII, so the macros do not matter for it. *)
From Verif Require Import Base Num_Spec Real_Model Real_Spec Real_Proofs Real_Proofs2 Real_Proofs3 Rconf_Model Rconf_Proofs.
From Coq Require Import ZArith.
Local Open Scope nat_scope.

Notation low c := (code c < 128)%N.

Lemma low_digits ds : Forall is_digit ds -> Forall (fun c => low c) ds.
Proof. apply Forall_impl. intros c [H1 H2]. unfold code. lia. Qed.
Lemma low_zeros zs : Forall (eq "0"%char) zs -> Forall (fun c => low c) zs.
Proof. apply Forall_impl. intros c <-. reflexivity. Qed.
Lemma low_sign neg sg : sign_text neg sg -> Forall (fun c => low c) sg.
Proof. destruct neg; cbn; [intros ->|intros [->| ->]]; repeat constructor. Qed.
Lemma low_one c x : In c (str x) -> Forall (fun c => low c) (str x) -> low c.
Proof. intros H1 H2. rewrite Forall_forall in H2. auto. Qed.
Lemma low_exponent n e x : exponent_text n e x -> Forall (fun c => low c) x.
Proof.
  intros [[-> _]|(c & neg & sg & zs & ds & -> & Hc & Hs & Hz & Hd & _)]; [constructor|]. constructor.
  - eapply low_one; [exact Hc|repeat constructor].
  - rewrite !Forall_app. repeat split; eauto using low_sign, low_zeros, low_digits.
Qed.
Lemma low_number neg I F e s : number_text neg I F e s -> Forall (fun c => low c) s.
Proof.
  intros (sg & m & x & -> & Hs & (HI & HF & Hm & _) & Hx). rewrite !Forall_app. repeat split.
  - eauto using low_sign.
  - destruct Hm as [[-> _]| ->]; rewrite ?Forall_app; repeat split; auto using low_digits. repeat constructor.
  - destruct Hx as [Hx|(x' & c & -> & Hc & Hx)]; [eauto using low_exponent|]. rewrite Forall_app. split; [eauto using low_exponent|].
    constructor; [|constructor]. eapply low_one; [exact Hc|repeat constructor].
Qed.

Lemma k_low O k s t : Forall (fun c => low c) s -> k_parse_real O k s t = parse_real O s t.
Proof. intros H. apply k_parse_real_same. eapply Forall_impl; [|exact H]. intros c Hc. right. now right. Qed.
