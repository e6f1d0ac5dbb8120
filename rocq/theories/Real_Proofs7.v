(* What decimal_sink refuses. *)
From Verif Require Import Base Num_Spec Parse_Model Real_Model Real_Spec Real_Proofs Real_Proofs2 Real_Proofs3 Real_Proofs4.
From Coq Require Import ZArith QArith.
Local Open Scope nat_scope.

Lemma sink_digits_bad O dot p ds c r n d : Forall is_digit ds -> ~ is_digit c -> (dot = true -> c <> "."%char) -> length ds < n ->
  sink_digits O dot (p ++ ds ++ c :: r) (length p) (length p + n) d = Ok None.
Proof.
  intros Hd Hc Hdot Hn. apply holds_eq. unfold sink_digits.
  apply loop_rule with (I := fun st => exists a b, ds = a ++ b /\ st = (length p + length a, push_all O a d))
     (mu := fun st => length p + length ds - fst st).
  - intros st (a & b & -> & ->). rewrite app_length in Hn.
    destruct (Nat.eqb_spec (length p + n) (length p + length a)) as [E|N]; [lia|].
    destruct b as [|x b].
    + rewrite app_nil_r in *. rewrite app_assoc, <- app_length, digit_at_other by exact Hc. cbn [bind]. rewrite rd_at. cbn [bind].
      destruct dot; cbn [andb]; [|reflexivity]. destruct (Ascii.eqb_spec c "."); [now destruct Hdot|reflexivity].
    + apply Forall_app in Hd. destruct Hd as [Ha Hb]. inversion Hb as [|? ? Hx Hb1]; subst.
      replace (p ++ (a ++ x :: b) ++ c :: r) with ((p ++ a) ++ x :: (b ++ c :: r)) by (now rewrite <- !app_assoc).
      rewrite <- app_length, digit_at_digit by auto. cbn [bind holds]. split.
      * exists (a ++ [x]), b. split; [now rewrite <- app_assoc|]. f_equal; [rewrite !app_length; cbn [length]; lia|]. unfold push_all. now rewrite fold_left_app.
      * cbn [fst]. rewrite !app_length. cbn [length]. lia.
  - exists [], ds. split; auto. cbn. f_equal. lia.
  - cbn [fst]. lia.
Qed.

Lemma decimal_sink_bad_fraction O neg sg I F c rest int_size frac_size t : sign_text neg sg -> Forall is_digit I -> Forall is_digit F -> ~ is_digit c ->
  length (drop_zeros I) <= int_size -> length F < frac_size ->
  decimal_sink O int_size frac_size (sg ++ I ++ "."%char :: F ++ c :: rest) t = Ok (false, t).
Proof.
  intros Hs HI HF Hc Hi Hf.
  destruct (split_zeros I) as (zs & I' & -> & Hz & H0 & Ed). rewrite Ed in Hi.
  assert (HI' : Forall is_digit I') by (apply Forall_app in HI; tauto).
  rewrite <- app_assoc. rewrite (sink_head O neg sg zs (I' ++ "."%char :: F ++ c :: rest)); auto.
  2:{ intros _. destruct zs as [|z zs]; [|inversion Hz; subst; cbn; intros [H|H]; discriminate].
      destruct I' as [|i I']; [cbn; intros [H|H]; discriminate|]. inversion HI'; subst. cbn. now apply digit_not_sign. }
  2:{ destruct I'; [discriminate|exact H0]. }
  2:{ destruct zs; [destruct I'|]; discriminate. }
  set (p := sg ++ zs).
  rewrite sink_digits_ok; auto.
  2:{ rewrite app_length. cbn [length]. destruct (Nat.eq_dec (length I') int_size) as [E|N]; [left; lia|right].
      split; [lia|]. split; [reflexivity|]. reflexivity. }
  cbn [bind].
  replace (p ++ I' ++ "."%char :: F ++ c :: rest) with ((p ++ I' ++ ["."%char]) ++ F ++ c :: rest) by (now rewrite <- !app_assoc).
  set (q := p ++ I' ++ ["."%char]).
  assert (Hq : length p + length I' + 1 = length q) by (unfold q; rewrite !app_length; cbn; lia).
  replace (length (q ++ F ++ c :: rest) =? length p + length I') with false
    by (symmetry; apply Nat.eqb_neq; rewrite (app_length q), <- Hq; lia).
  cbv zeta. rewrite Hq. replace (length (q ++ F ++ c :: rest) - length q) with (length F + S (length rest)) by (rewrite !app_length; cbn [length]; lia).
  rewrite sink_digits_bad; auto; [discriminate|lia].
Qed.

Lemma decimal_sink_bad_integer O neg sg I c rest int_size frac_size t : sign_text neg sg -> Forall is_digit I -> ~ is_digit c -> c <> "."%char ->
  sg ++ I <> [] \/ c <> "+"%char /\ c <> "-"%char -> length (drop_zeros I) < int_size ->
  decimal_sink O int_size frac_size (sg ++ I ++ c :: rest) t = Ok (false, t).
Proof.
  intros Hs HI Hc Hc2 Hne Hi.
  destruct (split_zeros I) as (zs & I' & -> & Hz & H0 & Ed). rewrite Ed in Hi.
  assert (HI' : Forall is_digit I') by (apply Forall_app in HI; tauto).
  rewrite <- app_assoc. rewrite (sink_head O neg sg zs (I' ++ c :: rest)); auto.
  2:{ intros ->. destruct zs as [|z zs]; [|inversion Hz; subst; cbn; intros [H|H]; discriminate].
      destruct I' as [|i I']; [|inversion HI'; subst; cbn; now apply digit_not_sign]. cbn in *. destruct Hne as [H|(H1 & H2)]; [congruence|].
      intros [H|H]; congruence. }
  2:{ destruct I'; [|exact H0]. cbn. intros <-. apply Hc. vm_compute. split; discriminate. }
  2:{ destruct zs; [destruct I'|]; discriminate. }
  rewrite sink_digits_bad; auto. rewrite app_length. cbn [length]. lia.
Qed.
