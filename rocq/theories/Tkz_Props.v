From Verif Require Import Base Split_Model Split_Spec Split_Props Tkz_Model Tkz_Spec Tkz_Proofs.
Local Open Scope nat_scope.

Definition comma := single_delimiter_predicate ","%char.
Definition semi := single_delimiter_predicate ";"%char.

(* C105: however a tokenizer was made out of constructions, assign and operator=, its begin()
   to end() walk lists the tokens of its current text under its current options, as long as
   the tokenizers involved share one predicate. *)
Theorem C105_walk : forall A (p : A -> bool) (b : build A), only_pred p b ->
  exists z, eval b = Ok z /\ walk z = tokenize p (text_of b) (opt_of b).
Proof. exact (@eval_walk). Qed.
Print Assumptions C105_walk.

Example C105_walk_plain_ex : (z <- eval (Assign (New comma (str "x,y") 0) (str "one,,two")) ;; walk z) = Ok [(0,3); (4,4); (5,8)] /\
  tokenize comma (str "one,,two") 0 = Ok [(0,3); (4,4); (5,8)].
Proof. vm_compute; auto. Qed.

(* with C04: those are the tokens of split *)
Theorem C105_walk_is_split : forall A (p : A -> bool) (b : build A), only_pred p b ->
  has_bit (opt_of b) 0 && has_bit (opt_of b) 1 && has_bit (opt_of b) 2 = false ->
  exists z toks, eval b = Ok z /\ walk z = Ok toks /\ split p (text_of b) (opt_of b) = Ok (toks, length toks).
Proof.
  intros A p b H O. destruct (eval_walk p b H) as (z & E & W).
  destruct (C04_tokenizer_is_split A p (text_of b) (opt_of b) O) as (toks & T & S).
  exists z, toks. rewrite W. auto.
Qed.
Print Assumptions C105_walk_is_split.

Example C105_walk_ex :
  let b := Set_ (Assign (New comma (str "x,y") 0) (str "one")) (Assign (New comma (str "") 1) (str "p,,q,r")) in
  only_pred comma b /\ (z <- eval b ;; walk z) = Ok [(0,1); (3,4); (5,6)].
Proof. vm_compute; auto. Qed.

(* With different predicates the copy keeps its own: the first token is cut with the
   predicate of the source, the others with the one of the target. *)
Theorem C105_other_predicate_refuted : exists (p q : ascii -> bool) s z toks,
  eval (Set_ (New p [] 0) (New q s 0)) = Ok z /\ walk z = Ok toks /\
  tokenize q s 0 <> Ok toks /\ tokenize p s 0 <> Ok toks.
Proof.
  exists comma, semi, (str "a;b,c;d"). eexists. eexists. split; [vm_compute; reflexivity|].
  split; [vm_compute; reflexivity|]. split; vm_compute; discriminate.
Qed.
Print Assumptions C105_other_predicate_refuted.

(* begin() += inc is at token inc: *itr, as_string() and remaining() are that token, its text
   and the text from its start; past the last token it is end(). *)
Theorem C105_advance : forall A (p : A -> bool) s opt z toks inc,
  make p s opt = Ok z -> tokenize p s opt = Ok toks ->
  exists i, advance (z_begin z) inc = Ok i /\
    match nth_error toks (Z.to_nat inc) with
    | Some t => deref i = t /\ same i (z_end z) = false /\ as_string i = sub s t /\ remaining i = skipn (fst t) s
    | None => same i (z_end z) = true
    end.
Proof. exact (@begin_advance). Qed.
Print Assumptions C105_advance.

Example C105_advance_ex :
  (z <- make comma (str "one,two,three") 0 ;; i <- advance (z_begin z) 1 ;; Ok (as_string i, remaining i))
  = Ok (str "two", str "two,three").
Proof. reflexivity. Qed.
Example C105_advance_ex2 :
  (z <- make comma (str "one,two,three") 0 ;; i <- advance (z_begin z) 7 ;;
   j <- advance (z_begin z) (-2) ;; Ok (same i (z_end z), as_string j)) = Ok (true, str "one").
Proof. reflexivity. Qed.

(* two moves are one move *)
Theorem C105_advance_add : forall A (p : A -> bool) s opt z a b,
  make p s opt = Ok z -> (0 <= a)%Z -> (0 <= b)%Z ->
  (i <- advance (z_begin z) a ;; advance i b) = advance (z_begin z) (a + b).
Proof. exact (@advance_add). Qed.
Print Assumptions C105_advance_add.

Example C105_advance_add_ex :
  (z <- make comma (str "one,two,three") 0 ;; i <- advance (z_begin z) 1 ;; i <- advance i 1 ;; Ok (as_string i))
  = Ok (str "three").
Proof. reflexivity. Qed.

(* An iterator that compares equal to end() is not interchangeable with it: its remaining()
   is still the last token. *)
Theorem C105_end_remaining_refuted : exists s z i,
  make comma s 0 = Ok z /\ advance (z_begin z) 2 = Ok i /\ same i (z_end z) = true /\
  remaining (z_end z) = [] /\ remaining i <> [].
Proof.
  exists (str "a,b"). eexists. eexists. split; [vm_compute; reflexivity|]. split; [vm_compute; reflexivity|].
  vm_compute. repeat split; discriminate.
Qed.
Print Assumptions C105_end_remaining_refuted.
