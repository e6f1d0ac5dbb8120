(* Property C109: split_regex and the predefined expressions. *)
From Verif Require Import Base Num_Spec Num_Proofs Split_Model Regex_Spec Regex_Model Regex_Proofs Real_Model Real_Spec Real_Props.
From Coq Require Import ZArith QArith SpecFloat.
Local Open Scope nat_scope.

(* one range per match, in order: the sub-match asked for *)
Theorem C109_split_regex : forall len ms mode out,
  split_regex len ms mode out 0 = (out ++ map (fun m => sub_match len m mode) ms, length ms).
Proof. intros. now rewrite split_regex_ok. Qed.
Print Assumptions C109_split_regex.

Example C109_split_regex_example : (* matches of (\d+)-(\d+) in 12-34,5-6 *)
  split_regex 9 [[(0,5); (0,2); (3,5)]; [(6,9); (6,7); (8,9)]] 2 [] 0 = ([(3,5); (8,9)], 2) /\
  split_regex 9 [[(0,5); (0,2); (3,5)]; [(6,9); (6,7); (8,9)]] 3 [] 0 = ([(9,9); (9,9)], 2).
Proof. split; reflexivity. Qed.

(* the first token_count of them, for a positive count *)
Theorem C109_split_regex_n : forall len ms cnt mode out, 1 <= cnt ->
  split_regex_n len ms cnt mode out 0 = (out ++ map (fun m => sub_match len m mode) (firstn cnt ms), Nat.min cnt (length ms)).
Proof. intros len ms cnt mode out H. rewrite (split_regex_n_ok len ms cnt mode out 0) by lia. replace (Nat.max 1 cnt - 0) with cnt by lia. reflexivity. Qed.
Print Assumptions C109_split_regex_n.

Example C109_split_regex_n_example :
  split_regex_n 7 [[(0,1)]; [(2,3)]; [(4,5)]; [(6,7)]] 3 0 [] 0 = ([(0,1); (2,3); (4,5)], 3) /\
  split_regex_n 7 [[(0,1)]; [(2,3)]] 3 0 [] 0 = ([(0,1); (2,3)], 2).
Proof. split; reflexivity. Qed.

(* a count of 0 acts as 1 *)
Theorem C109_zero_count_refuted : forall len m ms mode out,
  split_regex_n len (m :: ms) 0 mode out 0 = (out ++ [sub_match len m mode], 1).
Proof. reflexivity. Qed.
Print Assumptions C109_zero_count_refuted.

Example C109_zero_count_example : split_regex_n 3 [[(0,1)]; [(2,3)]] 0 0 [] 0 = ([(0,1)], 1).
Proof. reflexivity. Qed.

(* ---- the predefined expressions ---- *)
Theorem C109_well_formed : Forall (fun e => exists r, read_re e = Some r /\ of_text e = r)
  [uri_expression; email_expression; ip_expression; ieee754_expression].
Proof. repeat (apply Forall_cons; [eexists; split; vm_compute; reflexivity|]). apply Forall_nil. Qed.
Print Assumptions C109_well_formed.

Example C109_well_formed_example : read_re (str "(a|b") = None /\ read_re (str "a[b-d]") = Some (Seq (Class [(97,97)]) (Seq (Class [(98,100)]) Empty)).
Proof. split; reflexivity. Qed.

(* ip_expression *)
Theorem C109_ip : forall s, matches (of_text ip_expression) s <-> four_numbers s.
Proof. exact ip_ok. Qed.
Print Assumptions C109_ip.

Example C109_ip_example : matches (of_text ip_expression) (str "192.168.10.21") /\ ~ matches (of_text ip_expression) (str "192.168.10").
Proof. split; [apply matchb_ok; vm_compute; reflexivity|]. rewrite <- matchb_ok. vm_compute. discriminate. Qed.

(* addresses with a one-digit part are not matched, and parts above 255 are *)
Theorem C109_ip_refuted : (exists s, dotted_quad s /\ Forall (fun c => is_digit c \/ c = "."%char) s /\ ~ matches (of_text ip_expression) s) /\
  exists s, matches (of_text ip_expression) s /\ s = str "999.999.999.99999".
Proof.
  split.
  - exists (str "10.0.0.1"). split; [|split].
    + exists (str "10"), (str "0"), (str "0"), (str "1"). split; [reflexivity|].
      repeat (apply Forall_cons; [split; [repeat constructor; discriminate|cbn; lia]|]). apply Forall_nil.
    + repeat (apply Forall_cons; [first [right; reflexivity|left; split; discriminate]|]). apply Forall_nil.
    + rewrite <- matchb_ok. vm_compute. discriminate.
  - eexists. split; [|reflexivity]. apply matchb_ok. vm_compute. reflexivity.
Qed.
Print Assumptions C109_ip_refuted.

Example C109_ip_refuted_example : matchb (of_text ip_expression) (str "10.0.0.1") = false /\ matchb (of_text ip_expression) (str "10.00.00.01") = true.
Proof. split; vm_compute; reflexivity. Qed.

(* ieee754_expression *)
Theorem C109_ieee754 : forall s, matches (of_text ieee754_expression) s <-> decimal_number s.
Proof. exact ieee_ok. Qed.
Print Assumptions C109_ieee754.

Example C109_ieee754_example : Forall (matches (of_text ieee754_expression)) [str "-1.5e+10"; str ".5"; str "+12"] /\
  Forall (fun s => ~ matches (of_text ieee754_expression) s) [str "e5"; str "."; str "1.5e"; str ""].
Proof.
  split; repeat (apply Forall_cons; [first [apply matchb_ok; vm_compute; reflexivity|rewrite <- matchb_ok; vm_compute; discriminate]|]); apply Forall_nil.
Qed.

(* the parser for double and float accepts what the expression matches *)
Theorem C109_ieee754_parses : forall O, min_exponent10 O = (-307)%Z -> forall s t,
  matches (of_text ieee754_expression) s -> length s <= 615 ->
  (forall p e q, s = p ++ e :: q -> In e (str "eE") -> length q <= 3) ->
  exists v, parse_real O s t = Ok (true, v).
Proof.
  intros O HO s t H L X. apply ieee_ok in H. destruct H as (sg & body & -> & Sg & H).
  assert (G : exists neg, sign_text neg sg).
  { destruct Sg as [<-|[<-|[<-|[]]]]; [exists false; left; reflexivity|exists true; reflexivity|exists false; right; reflexivity]. }
  destruct G as [neg G]. rewrite app_length in L. destruct H as [[N D]|(i & f & x & -> & I & [N F] & Hx)].
  - eexists. apply (C48_numbers O HO neg body [] 0%Z); [|cbn; lia|lia].
    exists sg, body, []. rewrite app_nil_r. split; [auto|]. split; [auto|]. split; [|left; left; auto].
    split; [auto|]. split; [constructor|]. split; [left; auto|]. now rewrite app_nil_r.
  - rewrite !app_length in L. cbn [length] in L. rewrite !app_length in L.
    assert (M : mantissa_text i f (i ++ ["."%char] ++ f)).
    { split; [auto|]. split; [auto|]. split; [right; auto|]. intros E. apply app_eq_nil in E. tauto. }
    assert (T : exists e, tail_text e x /\ (-615 <= e)%Z).
    { destruct Hx as [->|(e & sg' & ds & -> & E & S' & [N' D'])].
      - exists 0%Z. split; [left; left; auto|lia].
      - assert (Q : length ds <= 2).
        { specialize (X (sg ++ i ++ "."%char :: f) e (sg' :: ds)). cbn [length] in X. enough (S (length ds) <= 3) by lia. apply X; [|auto]. rewrite <- !app_assoc. cbn [app]. reflexivity. }
        assert (B : (0 <= dec_value ds <= 99)%Z).
        { pose proof (Num_Proofs.dec_bounds ds D') as B. assert (10 ^ Z.of_nat (length ds) <= 10 ^ 2)%Z by (apply Z.pow_le_mono_r; lia). lia. }
        destruct S' as [<-|[<-|[]]].
        + exists (- dec_value ds)%Z. split; [|lia]. left. right. exists e, true, ["-"%char], [], ds. cbn [app]. split; [auto|]. split; [auto|]. split; [reflexivity|]. repeat split; auto; lia.
        + exists (dec_value ds)%Z. split; [|lia]. left. right. exists e, false, ["+"%char], [], ds. cbn [app]. split; [auto|]. split; [auto|]. split; [right; auto|]. repeat split; auto; lia. }
    destruct T as (e & T & Te). eexists. apply (C48_numbers O HO neg i f e); [|lia|lia].
    exists sg, (i ++ ["."%char] ++ f), x. split; [|auto]. f_equal. rewrite <- app_assoc. reflexivity.
Qed.
Print Assumptions C109_ieee754_parses.

Example C109_ieee754_parses_example : parse_real double (str "-1.5e+03") S754_nan = Ok (true, b64 (-1500) 0).
Proof. vm_compute. reflexivity. Qed.

(* but not conversely: forms that the parser takes for numbers are not matched *)
Theorem C109_ieee754_refuted : forall O, min_exponent10 O = (-307)%Z -> Forall (fun s => ~ matches (of_text ieee754_expression) s /\ forall t, exists v, parse_real O s t = Ok (true, v))
  [str "1e5"; str "1.5e5"; str "1."; str "1e+5"].
Proof.
  intros O HO. repeat (apply Forall_cons; [split; [rewrite <- matchb_ok; vm_compute; discriminate|]|]); [..|apply Forall_nil]; intros t; eexists.
  - apply (C48_numbers O HO false (str "1") [] 5%Z); [|cbn; lia|lia]. exists [], (str "1"), (str "e5"). split; [reflexivity|]. split; [left; reflexivity|]. split.
    + split; [repeat constructor; discriminate|]. split; [constructor|]. split; [left; auto|discriminate].
    + left. right. exists "e"%char, false, [], [], (str "5"). repeat split; auto; try (cbn; auto; fail); try (left; reflexivity); try discriminate; try constructor. repeat constructor; discriminate. constructor.
  - apply (C48_numbers O HO false (str "1") (str "5") 5%Z); [|cbn; lia|lia]. exists [], (str "1.5"), (str "e5"). split; [reflexivity|]. split; [left; reflexivity|]. split.
    + split; [repeat constructor; discriminate|]. split; [repeat constructor; discriminate|]. split; [right; auto|discriminate].
    + left. right. exists "e"%char, false, [], [], (str "5"). repeat split; auto; try (cbn; auto; fail); try (left; reflexivity); try discriminate; try constructor. repeat constructor; discriminate. constructor.
  - apply (C48_numbers O HO false (str "1") [] 0%Z); [|cbn; lia|lia]. exists [], (str "1."), []. split; [reflexivity|]. split; [left; reflexivity|]. split.
    + split; [repeat constructor; discriminate|]. split; [constructor|]. split; [right; auto|discriminate].
    + left. left. auto.
  - apply (C48_numbers O HO false (str "1") [] 5%Z); [|cbn; lia|lia]. exists [], (str "1"), (str "e+5"). split; [reflexivity|]. split; [left; reflexivity|]. split.
    + split; [repeat constructor; discriminate|]. split; [constructor|]. split; [left; auto|discriminate].
    + left. right. exists "e"%char, false, (str "+"), [], (str "5"). repeat split; auto; try (cbn; auto; fail); try (right; reflexivity); try discriminate; try constructor. repeat constructor; discriminate. constructor.
Qed.
Print Assumptions C109_ieee754_refuted.

Example C109_ieee754_refuted_example : matchb (of_text ieee754_expression) (str "1e5") = false /\ parse_real double (str "1e5") S754_nan = Ok (true, b64 100000 0).
Proof. split; vm_compute; reflexivity. Qed.

(* email_expression *)
Theorem C109_email : forall s, matches (of_text email_expression) s <-> email_address s.
Proof. exact email_ok. Qed.
Print Assumptions C109_email.

Example C109_email_example : Forall (matches (of_text email_expression)) [str "a.b-c@x-1.example.org"; str "joe@[127.0.0.1]"] /\
  Forall (fun s => ~ matches (of_text email_expression) s) [str "joe@localhost"; str "@example.org"; str "a+b@example.org"; str "joe@example.museum"].
Proof.
  split; repeat (apply Forall_cons; [first [apply matchb_ok; vm_compute; reflexivity|rewrite <- matchb_ok; vm_compute; discriminate]|]); apply Forall_nil.
Qed.

(* uri_expression *)
Theorem C109_uri : forall s, matches (of_text uri_expression) s <-> uri s.
Proof. exact uri_ok. Qed.
Print Assumptions C109_uri.

Example C109_uri_example : Forall (matches (of_text uri_expression)) [str "http://www.partow.net/programming/strtk/index.html"; str "ftp://[10.0.0.1]:21/"; str "https://example.org:8080"] /\
  Forall (fun s => ~ matches (of_text uri_expression) s) [str "http://localhost/"; str "gopher://example.org"; str "http://example.org//"; str "http://a.org/x(y)"].
Proof.
  split; repeat (apply Forall_cons; [first [apply matchb_ok; vm_compute; reflexivity|rewrite <- matchb_ok; vm_compute; discriminate]|]); apply Forall_nil.
Qed.

(* brackets need not be closed, and a number in the address may exceed 255 *)
Theorem C109_uri_refuted : forall o c, In o [[]; str "["] -> In c [[]; str "]"] -> matches (of_text uri_expression) (str "http://" ++ o ++ str "999.1.1.1" ++ c).
Proof. intros o c [<-|[<-|[]]] [<-|[<-|[]]]; apply matchb_ok; vm_compute; reflexivity. Qed.
Print Assumptions C109_uri_refuted.

Example C109_uri_refuted_example : matches (of_text uri_expression) (str "http://[999.1.1.1").
Proof. exact (C109_uri_refuted (str "[") [] ltac:(cbn; auto) ltac:(cbn; auto)). Qed.
