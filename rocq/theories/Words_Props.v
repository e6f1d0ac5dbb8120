From Verif Require Import Base Split_Model Split_Spec Codec_Spec Parse_Model Parse_Spec Parse_Proofs Tkz_Model Tkz_Spec Tkz_Proofs Grid_Spec Numstats_Spec Filter_Spec IO_Model IO_Spec IO_Proofs Stl_Model Words_Model Words_Spec Words_Proofs.
Local Open Scope nat_scope.

(* for_each_token calls the function once for each token of the text, in order, and counts them *)
Theorem C105_for_each_token : forall A St (g : St -> nat * nat -> St) (p : A -> bool) (b : build A) s x, only_pred p b ->
  has_bit (opt_of b) 0 && has_bit (opt_of b) 1 && has_bit (opt_of b) 2 = false ->
  exists z z' toks, eval b = Ok z /\ split p s (opt_of b) = Ok (toks, length toks) /\
    tokens_of p s (spec_tok_end (opt_of b)) (spec_next_start (opt_of b)) toks /\
    for_each_token (fun x r => Ok (g x r)) z s x = Ok (length toks, fold_left g toks x, z').
Proof.
  intros A St g p b s x H O. destruct (eval_shaped p b H) as (z & E & Hz).
  destruct (for_each_token_ok (fun x r => Ok (g x r)) p _ _ z s x Hz O) as (z' & toks & _ & S & F).
  destruct (Split_Proofs.split_tokens p s (opt_of b)) as (toks' & S' & T). rewrite S in S'. assert (toks' = toks) by congruence. subst toks'.
  exists z, z', toks. split; [exact E|]. split; [exact S|]. split; [exact T|]. rewrite F. now rewrite call_each_pure.
Qed.
Print Assumptions C105_for_each_token.
Example C105_for_each_token_case :
  (z <- make (Ascii.eqb ",") (str "old") 1 ;; ' (n, x, _) <- for_each_token (fun x r => Ok (x ++ [r])) z (str "a,,bc") [] ;; Ok (n, x)) =
  Ok (2, [(0, 1); (3, 5)]).
Proof. vm_compute. reflexivity. Qed.

Theorem C105_for_each_token_delimiters : forall St (g : St -> nat * nat -> St) d s x, exists toks,
  tokens_of (is_delim d) s (fun f e => f) (fun f e => S f) toks /\
  for_each_token_split (fun x r => Ok (g x r)) d s x = Ok (length toks, fold_left g toks x).
Proof.
  intros St g d s x. destruct (split_toks d s 0) as (toks & E & H). exists toks. split; [exact H|].
  unfold for_each_token_split. rewrite E. cbn [bind]. now rewrite call_each_pure.
Qed.
Print Assumptions C105_for_each_token_delimiters.
Example C105_for_each_token_delimiters_case :
  for_each_token_split (fun x r => Ok (x ++ [r])) (str ",;") (str "a,;bc") [] = Ok (3, [(0, 1); (2, 2); (3, 5)]).
Proof. vm_compute. reflexivity. Qed.

(* the first program: the words of the file in order, with empty ones at the ends of lines *)
Theorem C125_list : forall fs file ls, lines_of (contents fs file) ls ->
  parse_text1 fs file = Ok (if can_open fs file then concat (map framed ls) else []).
Proof.
  intros fs file ls H. unfold parse_text1, for_each_line_file, ifstream. destruct (can_open fs file); [|reflexivity]. cbn [good].
  rewrite (for_each_line_ok _ _ _ H). cbn [bind]. now rewrite lines1.
Qed.
Print Assumptions C125_list.
Example C125_list_case :
  let fs := FSys (fun n => if n =? 0 then Some (str "so, it_goes." ++ [ascii_of_nat 10; ascii_of_nat 10] ++ str "-On") else None) (fun _ => true) (fun _ => true) in
  parse_text1 fs 0 = Ok [str "so"; str "it"; str "goes"; []; []; str "On"] /\ parse_text1 fs 1 = Ok [].
Proof. split; vm_compute; reflexivity. Qed.

Theorem C125_words : forall fs file, can_open fs file = true -> exists list,
  parse_text1 fs file = Ok list /\ filter nonempty list = text_words (contents fs file).
Proof.
  intros fs file H. destruct (lines_exist (contents fs file)) as (ls & Hl). rewrite (C125_list _ _ _ Hl), H.
  eexists. split; [reflexivity|]. rewrite filter_concat, map_map, (map_ext _ _ filter_framed). now apply lines_words.
Qed.
Print Assumptions C125_words.
Example C125_words_case : text_words (str "so, it_goes; -On") = [str "so"; str "it"; str "goes"; str "On"].
Proof. vm_compute. reflexivity. Qed.

(* so the token count it reports is not the number of words *)
Theorem C125_token_count_refuted : exists fs file list, can_open fs file = true /\
  parse_text1 fs file = Ok list /\ length list <> length (text_words (contents fs file)).
Proof.
  exists (FSys (fun _ => Some (str "Hello, world.")) (fun _ => true) (fun _ => true)), 0, [str "Hello"; str "world"; []].
  split; [reflexivity|]. split; [vm_compute; reflexivity|]. vm_compute. discriminate.
Qed.
Print Assumptions C125_token_count_refuted.

(* the second program: the words that are not in the list, whatever their case *)
Theorem C125_interesting : forall fs file, can_open fs file = true ->
  Forall (fun c => nat_of_ascii c < 128) (contents fs file) -> exists list,
  parse_text2 fs file = Ok list /\
  selects (fun w => ~ one_of_ignoring_case stop_words w) (text_words (contents fs file)) list.
Proof.
  intros fs file H H7. destruct (lines_exist (contents fs file)) as (ls & Hl). unfold parse_text2.
  destruct (make_shaped (multiple_char_delimiter_predicate delimiters) [] 1) as (z & -> & Hz). cbn [bind].
  unfold for_each_line_file, ifstream. rewrite H. cbn [good]. rewrite (for_each_line_ok _ _ _ Hl). cbn [bind].
  destruct (lines2 ls (lines_seven _ _ Hl H7) [] z [] Hz) as (z' & kept & S & ->). cbn [bind app]. exists kept.
  split; [reflexivity|]. now rewrite <- (lines_words _ _ Hl).
Qed.
Print Assumptions C125_interesting.
Example C125_interesting_case :
  let fs := FSys (fun n => if n =? 0 then Some (str "At 10, to the END of it.") else None) (fun _ => true) (fun _ => true) in
  parse_text2 fs 0 = Ok [str "the"; str "END"; str "it"].
Proof. vm_compute. reflexivity. Qed.

Theorem C125_no_file : forall fs file, can_open fs file = false -> parse_text2 fs file = Ok [].
Proof.
  intros fs file H. unfold parse_text2. destruct (make_shaped (multiple_char_delimiter_predicate delimiters) [] 1) as (z & -> & _). cbn [bind].
  unfold for_each_line_file, ifstream. now rewrite H.
Qed.
Print Assumptions C125_no_file.
Example C125_no_file_case : parse_text2 (FSys (fun _ => Some (str "x")) (fun _ => false) (fun _ => true)) 0 = Ok [].
Proof. vm_compute. reflexivity. Qed.

(* other texts: a word of two bytes above 127 (an e with an acute accent in UTF-8) is compared
   with the listed words through std::toupper of a negative char *)
Theorem C125_other_alphabets_refuted : exists fs file, can_open fs file = true /\ parse_text2 fs file = UB.
Proof.
  exists (FSys (fun _ => Some [ascii_of_nat 195; ascii_of_nat 169]) (fun _ => true) (fun _ => true)), 0.
  split; [reflexivity|]. vm_compute. reflexivity.
Qed.
Print Assumptions C125_other_alphabets_refuted.
