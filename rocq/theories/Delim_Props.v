(* Delimiters as C strings, delimiter predicates of any type, empty strings: C108. *)
From Verif Require Import Base Split_Model Edit_Spec Edit_Model Edit_Props Delim_Spec Delim_Model Delim_Proofs.
Local Open Scope nat_scope.

(* split with a C string, a string or a single character as delimiters is split with the
   predicate "is one of them", of any length *)
Theorem C108_split_cstring : forall bytes t s opt, c_text bytes t ->
  split_cstr bytes s opt = split (among Ascii.eqb t) s opt.
Proof. exact split_cstr_ok. Qed.
Print Assumptions C108_split_cstring.

Example C108_split_example : c_text (str ",;" ++ zero :: str "abc") (str ",;") /\
  split_cstr (str ",;" ++ zero :: str "abc") (str "a,b;c") 0 = Ok ([(0,1); (2,3); (4,5)], 3) /\
  split_cstr (str "," ++ [zero]) (str "a,b;c") 0 = Ok ([(0,1); (2,5)], 2) /\ split_cstr [zero] (str "a,b;c") 0 = Ok ([(0,5)], 1).
Proof. split; [split; [cbn; intuition discriminate|eexists; reflexivity]|]. repeat split. Qed.

Theorem C108_split_char : forall d s opt, split_char d s opt = split (among Ascii.eqb [d]) s opt.
Proof. intros. apply Split_Proofs3.split_pred_ext. apply among_single. Qed.
Print Assumptions C108_split_char.

Example C108_split_char_example : split_char ","%char (str "a,b;c") 0 = Ok ([(0,1); (2,5)], 2).
Proof. reflexivity. Qed.

Theorem C108_split_n : forall bytes t s n opt,
  (c_text bytes t -> split_n_cstr bytes s n opt = split_n (among Ascii.eqb t) s n opt) /\
  split_n_str t s n opt = split_n (among Ascii.eqb t) s n opt.
Proof. intros. split; [apply split_n_cstr_ok|apply split_n_str_ok]. Qed.
Print Assumptions C108_split_n.

Example C108_split_n_example : split_n_cstr (str ",;" ++ [zero]) (str "a,b;c") 2 0 = Ok ([(0,1); (2,3)], 2) /\
  split_n_str (str ",") (str "a,b;c") 2 0 = Ok ([(0,1); (2,5)], 2).
Proof. split; reflexivity. Qed.

(* the terminating NUL is needed *)
Theorem C108_unterminated_refuted : forall bytes s opt, ~ In zero bytes -> split_cstr bytes s opt = UB.
Proof. exact split_cstr_ub. Qed.
Print Assumptions C108_unterminated_refuted.

Example C108_unterminated_example : split_cstr (str ",") (str "a,b") 0 = UB.
Proof. reflexivity. Qed.

(* removal with a C string: only its first 256 characters count *)
Theorem C108_remove_cstring : forall bytes t s, c_text bytes t ->
  let p := among Ascii.eqb (firstn 256 t) in
  remove_consecutives_cstr bytes s = Ok (drop_after (fun y x => p x && p y) s) /\
  (exists r, remove_leading_cstr bytes s = Ok r /\ trimmed_left p s r) /\
  ((s = [] \/ exists x, In x s /\ p x = false) -> exists r, remove_trailing_cstr bytes s = Ok r /\ trimmed_right p s r) /\
  (forall x s', s = x :: s' -> (forall y, In y s -> p y = true) -> remove_trailing_cstr bytes s = Ok [x]).
Proof.
  intros bytes t s H p. destruct (rem_predicate_ok bytes t H) as (q & E & Q). split; [|split; [|split]].
  - unfold remove_consecutives_cstr. destruct (Nat.eqb_spec (length s) 0) as [L|L].
    + destruct s; [reflexivity|discriminate].
    + rewrite E. cbn [bind]. destruct (C09_remove_consecutives_pred _ q s) as (_ & K & _). rewrite K. f_equal. apply drop_after_ext. intros x y. now rewrite !Q.
  - rewrite remove_leading_cstr_eq. destruct (Nat.eqb_spec (length s) 0) as [L|L].
    + destruct s; [|discriminate]. exists []. split; [auto|]. exists []. split; [auto|]. split; [constructor|]. discriminate.
    + rewrite E. cbn [bind]. destruct (C10_remove_leading _ q s) as (r & K & M). exists r. split; [auto|]. eapply trimmed_left_ext; eauto.
  - intros C. rewrite remove_trailing_cstr_eq, E. cbn [bind]. destruct (C10_remove_trailing _ q s) as (r & K & M).
    + destruct C as [C|(x & I & P)]; [auto|]. right. exists x. rewrite Q. auto.
    + exists r. split; [auto|]. eapply trimmed_right_ext; eauto.
  - intros x s' -> A. rewrite remove_trailing_cstr_eq, E. cbn [bind]. apply C10_remove_trailing_refuted.
    rewrite Forall_forall. intros y Hy. rewrite Q. auto.
Qed.
Print Assumptions C108_remove_cstring.

Example C108_remove_example : let d := str " _" ++ zero :: str "x" in
  remove_consecutives_cstr d (str "_a _ xx") = Ok (str "_a xx") /\ remove_leading_cstr d (str " _ x _") = Ok (str "x _") /\
  remove_trailing_cstr d (str " _ x _") = Ok (str " _ x") /\ remove_trailing_cstr d (str "__") = Ok (str "_").
Proof. repeat split. Qed.

(* a character behind the first 256 is not removed *)
Theorem C108_long_cstring_refuted : exists bytes t s x, c_text bytes t /\ In x t /\ s = [x; x] /\
  remove_leading_cstr bytes s = Ok s /\ remove_trailing_cstr bytes s = Ok s /\ remove_consecutives_cstr bytes s = Ok s.
Proof.
  exists (repeat "a"%char 256 ++ str "b" ++ [zero]), (repeat "a"%char 256 ++ str "b"), (str "bb"), "b"%char.
  assert (H : c_text (repeat "a"%char 256 ++ str "b" ++ [zero]) (repeat "a"%char 256 ++ str "b")).
  { split; [|exists []; rewrite <- app_assoc; reflexivity]. rewrite in_app_iff. intros [K|K]; [apply repeat_spec in K; discriminate|]. cbn in K. intuition discriminate. }
  split; [exact H|]. split; [apply in_or_app; right; now left|]. split; [reflexivity|].
  destruct (rem_predicate_ok _ _ H) as (q & E & Q).
  assert (Q' : q "b"%char = false) by (rewrite Q; reflexivity).
  rewrite remove_leading_cstr_eq, remove_trailing_cstr_eq. unfold remove_consecutives_cstr. rewrite E. cbn [bind].
  split; [|split]; cbn; rewrite ?Q'; cbn; rewrite ?Q'; reflexivity.
Qed.
Print Assumptions C108_long_cstring_refuted.

(* multiple_delimiter_predicate<T>: made from any number of delimiters, it tests membership
   as long as the arrays it knows are left alone, and its destructor releases its array
   exactly when it has one *)
Theorem C108_predicate_object : forall T (eqb : T -> T -> bool) (h : heap) (ds : list T),
  exists m h', mdp_new h ds = Ok (m, h') /\
   (forall h2 x, (forall k, k < length h' -> nth_error h2 k = nth_error h' k) -> mdp_test eqb h2 m x = Ok (among eqb ds x)) /\
   exists h3, mdp_delete h' m = Ok h3 /\ firstn (length h) h3 = h /\ Forall (fun o => o = None) (skipn (length h) h3).
Proof. intros. apply mdp_ok. Qed.
Print Assumptions C108_predicate_object.

Example C108_predicate_example :
  match mdp_new [] (seq 0 40), mdp_new [] [3; 5] with
  | Ok (m, h), Ok (m', h') => mdp_test Nat.eqb h m 39 = Ok true /\ mdp_test Nat.eqb h m 40 = Ok false /\ length h = 1 /\ mdp_delete h m = Ok [None] /\
      mdp_test Nat.eqb h' m' 5 = Ok true /\ mdp_test Nat.eqb h' m' 0 = Ok false /\ h' = [] /\ mdp_delete h' m' = Ok []
  | _, _ => False
  end.
Proof. repeat split. Qed.

(* with 32 delimiters no array is allocated, with 33 one is *)
Theorem C108_predicate_storage : forall T (h : heap) (ds : list T) m h', mdp_new h ds = Ok (m, h') ->
  length h' = length h + (if length ds <=? 32 then 0 else 1).
Proof.
  intros T h ds m h' E. unfold mdp_new in E. change sbo_size with 32 in E. destruct (Nat.leb_spec (length ds) 32) as [L|L].
  - pose proof (copy_cells_ok ds (repeat None 32)) as K. rewrite repeat_length in K. rewrite (K L) in E. cbn [bind] in E. injection E as _ <-. lia.
  - pose proof (copy_cells_ok ds (repeat None (length ds))) as K. rewrite repeat_length in K. rewrite (K ltac:(lia)) in E. cbn [bind] in E. injection E as _ <-. rewrite app_length. cbn. lia.
Qed.
Print Assumptions C108_predicate_storage.

Example C108_storage_example : (exists m, mdp_new [None] (seq 0 32) = Ok (m, [None])) /\ exists m a, mdp_new [None] (seq 0 33) = Ok (m, [None; Some a]).
Proof. split; [eexists|eexists _, _]; reflexivity. Qed.

(* remove_empty_strings: exactly the strings that are not empty stay, in their order *)
Theorem C108_remove_empty_strings : forall c,
  remove_empty_set c = Ok (filter (fun x => negb (length x =? 0)) c) /\
  remove_empty_seq c = Ok (filter (fun x => negb (length x =? 0)) c).
Proof.
  intros c. split; [apply remove_empty_set_ok|]. unfold remove_empty_seq.
  pose proof (C08_remove_inplace_seq _ (fun x : list ascii => length x =? 0) c) as K. unfold remove_inplace_seq in K.
  destruct (remove_inplace _ c) as [[c' n]| |]; cbn [bind] in *; congruence.
Qed.
Print Assumptions C108_remove_empty_strings.

Example C108_remove_empty_example : remove_empty_set [[]; []; str "a"; []; str "b"; []] = Ok [str "a"; str "b"] /\
  remove_empty_seq [str "b"; []; str "a"; []] = Ok [str "b"; str "a"].
Proof. split; reflexivity. Qed.
