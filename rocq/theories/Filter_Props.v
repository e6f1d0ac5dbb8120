(* Properties C81 (filter_on_match), C82 (filter_on_wildcard_match), C83 (size predicates),
   C84 (converting inserters) and C85 (extract_unique, skip_while_matching, filter_non_empty_range). *)
From Verif Require Import Base Codec_Spec Match_Model Filter_Model Filter_Spec Filter_Proofs Cont_Spec.
From Coq Require Import Sorted.
Local Open Scope nat_scope.

(* C81: ignoring case, the tokens let through are exactly those equal to a pattern up to
   letter case (those not equal to any, if the filter blocks), in order *)
Theorem C81_ignoring_case :
  forall pats allow mem toks,
  Forall (Forall (fun c => nat_of_ascii c < 128)) pats ->
  Forall (fun r => Forall (fun c => nat_of_ascii c < 128) (sub mem r)) toks ->
  forall out, exists kept,
    for_tokens (filter_on_match_range pats true allow mem) toks out = Ok (out ++ kept) /\
    selects (fun r => allowed allow (one_of_ignoring_case pats (sub mem r))) toks kept.
Proof. exact ci_ok. Qed.
Print Assumptions C81_ignoring_case.

Example C81_example_case :
  for_tokens (filter_on_match_range [str "yes"] true true (str "YES,yes,yesno")) [(0,3);(4,7);(8,13)] [] = Ok [(0,3);(4,7)].
Proof. reflexivity. Qed.

(* case-sensitively, a token of a string counts as matching when the text from its start on
   begins with a pattern *)
Theorem C81_case_sensitive :
  forall pats allow s toks,
  Forall (fun p => ~ In zero p) pats -> Forall (fun r => fst r <= length s) toks ->
  forall out, exists kept,
    for_tokens (filter_on_match_range pats false allow (s ++ [zero])) toks out = Ok (out ++ kept) /\
    selects (fun r => allowed allow (exists p, In p pats /\ starts_at p s (fst r))) toks kept.
Proof. exact cs_ok. Qed.
Print Assumptions C81_case_sensitive.

Example C81_example_prefix :
  for_tokens (filter_on_match_range [str "yes"] false true (str "YES,yes,yesno" ++ [zero])) [(0,3);(4,7);(8,13)] [] = Ok [(4,7);(8,13)] /\
  for_tokens (filter_on_match_range [str "yes"] false false (str "YES,yes,yesno" ++ [zero])) [(0,3);(4,7);(8,13)] [] = Ok [(0,3)].
Proof. split; reflexivity. Qed.

(* so with patterns of the tokens' length the filter is exact *)
Theorem C81_case_sensitive_exact :
  forall pats allow s toks,
  Forall (fun p => ~ In zero p) pats ->
  Forall (fun r => fst r <= snd r <= length s /\ Forall (fun p => length p = snd r - fst r) pats) toks ->
  forall out, exists kept,
    for_tokens (filter_on_match_range pats false allow (s ++ [zero])) toks out = Ok (out ++ kept) /\
    selects (fun r => allowed allow (In (sub s r) pats)) toks kept.
Proof.
  intros pats allow s toks Hp Ht out.
  destruct (cs_ok pats allow s toks Hp) with (out := out) as (kept & E & Hs).
  { eapply Forall_impl; [|exact Ht]. cbn beta. intros r Hr. lia. }
  exists kept. split; [exact E|]. eapply selects_ext; [|exact Hs].
  eapply Forall_impl; [|exact Ht]. cbn beta. intros r (Hr & Hl).
  assert (G : (exists p, In p pats /\ starts_at p s (fst r)) <-> In (sub s r) pats).
  { rewrite Forall_forall in Hl. split.
    - intros (p & Hi & Hst). apply starts_same_length in Hst; auto. now subst.
    - intros Hi. exists (sub s r). split; auto. apply starts_same_length; auto. }
  unfold allowed. destruct allow; tauto.
Qed.
Print Assumptions C81_case_sensitive_exact.

Example C81_example_exact :
  for_tokens (filter_on_match_range [str "cat"; str "dog"] false true (str "dog,cow,Cat,cat" ++ [zero])) [(0,3);(4,7);(8,11);(12,15)] [] = Ok [(0,3);(12,15)].
Proof. reflexivity. Qed.

(* on a whole std::string with the letting-through setting: the strings beginning with a pattern *)
Theorem C81_string_allow :
  forall pats s, Forall (fun p => ~ In zero p) pats -> forall out,
  ((exists p, In p pats /\ exists t, s = p ++ t) -> filter_on_match_string pats false true s out = Ok (out ++ [s])) /\
  (~ (exists p, In p pats /\ exists t, s = p ++ t) -> filter_on_match_string pats false true s out = Ok out).
Proof.
  intros pats s Hp out.
  assert (HM : forall p, In p pats -> exists b, pattern_matches false p (s ++ [zero]) (0, length s) = Ok b /\ (b = true <-> exists t, s = p ++ t)).
  { intros p Hi. rewrite Forall_forall in Hp. unfold pattern_matches. rewrite std_equal3_eq. apply (eq3_nul p (Hp p Hi)). }
  destruct (string_loop pats false true s out _ HM) as (b & Hb & ->).
  split; intros H; destruct b; auto; exfalso; [|now apply H, Hb].
  destruct Hb as [_ Hb]. now specialize (Hb H).
Qed.
Print Assumptions C81_string_allow.

Example C81_example_string :
  filter_on_match_string [str "ab"; str "x"] false true (str "abc") [str "-"] = Ok [str "-"; str "abc"] /\
  filter_on_match_string [str "ab"; str "x"] false true (str "acb") [str "-"] = Ok [str "-"].
Proof. split; reflexivity. Qed.

(* with the blocking setting the overload for strings blocks nothing *)
Theorem C81_string_block_refuted :
  forall pats ci s, (ci = true -> Forall (Forall (fun c => nat_of_ascii c < 128)) pats /\ Forall (fun c => nat_of_ascii c < 128) s) ->
  Forall (fun p => ~ In zero p) pats ->
  forall out, filter_on_match_string pats ci false s out = Ok (out ++ [s]).
Proof.
  intros pats ci s Hci Hp out.
  assert (HM : forall p, In p pats -> exists b, pattern_matches ci p (s ++ [zero]) (0, length s) = Ok b /\
            (b = true <-> if ci then map upper p = map upper s else exists t, s = p ++ t)).
  { intros p Hi. rewrite Forall_forall in Hp. unfold pattern_matches. destruct ci.
    - destruct (Hci eq_refl) as (H1 & H2). rewrite Forall_forall in H1.
      replace (sub (s ++ [zero]) (0, length s)) with s.
      + apply (Match_Proofs.imatch_ok p s (H1 p Hi) H2).
      + unfold sub. cbn [fst snd skipn]. rewrite Nat.sub_0_r. now rewrite firstn_app_len.
    - rewrite std_equal3_eq. apply (eq3_nul p (Hp p Hi)). }
  destruct (string_loop pats ci false s out _ HM) as (b & Hb & ->). now rewrite orb_true_r.
Qed.
Print Assumptions C81_string_block_refuted.

Example C81_string_block_refuted_ex : filter_on_match_string [str "ab"] false false (str "ab") [] = Ok [str "ab"].
Proof. vm_compute. reflexivity. Qed.

(* the pattern "ab" lets "abc" through, and "a,b" the token "a" of "a,b" *)
Theorem C81_exact_refuted :
  for_tokens (filter_on_match_range [str "ab"] false true (str "abc" ++ [zero])) [(0, 3)] [] = Ok [(0, 3)] /\
  for_tokens (filter_on_match_range [str "a,b"] false true (str "a,b" ++ [zero])) [(0, 1); (2, 3)] [] = Ok [(0, 1)].
Proof. split; reflexivity. Qed.
Print Assumptions C81_exact_refuted.

(* on an array without a NUL, a token at the end that begins a pattern makes the filter read on past the array *)
Theorem C81_memory_refuted :
  forall pre tok more allow, more <> [] ->
  filter_on_match_range [tok ++ more] false allow (pre ++ tok) (length pre, length pre + length tok) [] = UB.
Proof.
  intros pre tok more allow Hm. unfold filter_on_match_range. cbn [length loop Nat.eqb].
  change (rd [tok ++ more] 0) with (Ok (tok ++ more)). cbn [bind]. unfold pattern_matches. cbn [fst].
  rewrite std_equal3_eq, skipn_app_len, eq3_ub by exact Hm. reflexivity.
Qed.
Print Assumptions C81_memory_refuted.

Example C81_example :
  for_tokens (filter_on_match_range [str "on"; str "OFF"] true true (str "On,x,off,o")) [(0,2);(3,4);(5,8);(9,10)] [] = Ok [(0,2);(5,8)] /\
  for_tokens (filter_on_match_range [str "on"; str "OFF"] true false (str "On,x,off,o")) [(0,2);(3,4);(5,8);(9,10)] [] = Ok [(3,4);(9,10)].
Proof. split; reflexivity. Qed.

(* C82: with the pattern prefix* the filter lets through exactly what does not have the prefix
   under the setting "allow through on match", and exactly what has it under the other one *)
Theorem C82_range :
  forall l allow mem toks, Forall (fun c => c <> "*"%char /\ c <> "?"%char) l ->
  Forall (fun r => fst r <= snd r <= length mem) toks ->
  forall out, exists kept,
    for_tokens (filter_on_wildcard_match_range (l ++ ["*"%char]) allow mem) toks out = Ok (out ++ kept) /\
    selects (fun r => allowed allow (~ exists t, sub mem r = l ++ t)) toks kept.
Proof. exact wildcard_range_ok. Qed.
Print Assumptions C82_range.

Example C82_example_range :
  for_tokens (filter_on_wildcard_match_range (str "ab*") true (str "abc,b,ab")) [(0,3);(4,5);(6,8)] [] = Ok [(4,5)].
Proof. reflexivity. Qed.

Theorem C82_string :
  forall l allow toks, Forall (fun c => c <> "*"%char /\ c <> "?"%char) l ->
  forall out, exists kept,
    for_tokens (filter_on_wildcard_match_string (l ++ ["*"%char]) allow) toks out = Ok (out ++ kept) /\
    selects (fun s => allowed allow (~ exists t, s = l ++ t)) toks kept.
Proof. exact wildcard_string_ok. Qed.
Print Assumptions C82_string.

Example C82_example_string :
  for_tokens (filter_on_wildcard_match_string (str "ab*") false) [str "abc"; str "b"; str "ab"] [] = Ok [str "abc"; str "ab"].
Proof. reflexivity. Qed.

(* the reading of the parameter name is the opposite: a match is not let through *)
Theorem C82_allow_refuted :
  for_tokens (filter_on_wildcard_match_string (str "a*") true) [str "abc"; str "b"] [] = Ok [str "b"] /\
  ~ selects (fun s => allowed true (exists t, s = str "a" ++ t)) [str "abc"; str "b"] [str "b"].
Proof.
  split; [reflexivity|]. intros H. inversion H; subst.
  apply H2. exists (str "bc"). reflexivity.
Qed.
Print Assumptions C82_allow_refuted.

Example C82_example :
  for_tokens (filter_on_wildcard_match_range (str "ab*") false (str "abc,b,ab")) [(0,3);(4,5);(6,8)] [] = Ok [(0,3);(6,8)].
Proof. reflexivity. Qed.

(* C83: size predicates on a range of d elements, and on a container of that size *)
Theorem C83_sizes :
  forall len d, (0 <= len < 2 ^ 63)%Z -> (0 <= d < 2 ^ 63)%Z ->
  (size_equal_to_range len d = true <-> d = len) /\ (size_equal_to len d = true <-> d = len) /\
  (size_less_than_range len d = true <-> (d < len)%Z) /\ (size_less_than len d = true <-> (d < len)%Z) /\
  (size_greater_than_range len d = true <-> (d > len)%Z) /\ (size_greater_than len d = true <-> (d > len)%Z) /\
  (size_is_even d = true <-> exists k, d = (2 * k)%Z) /\ (size_is_odd d = true <-> exists k, d = (2 * k + 1)%Z) /\
  (empty_range d = true <-> d = 0%Z) /\ (nonempty_range d = true <-> (0 < d)%Z).
Proof.
  intros len d Hl Hd. unfold size_equal_to_range, size_equal_to, size_less_than_range, size_less_than,
    size_greater_than_range, size_greater_than, size_is_even, size_is_odd, empty_range, nonempty_range, to_ptrdiff, to_size_t.
  rewrite !(Z.mod_small _ (2 ^ 64)) by lia.
  destruct (Z.ltb_spec len (2 ^ 63)); [|lia].
  rewrite Z.rem_mod_nonneg by lia.
  pose proof (Z.div_mod d 2 ltac:(lia)) as Hdm. pose proof (Z.mod_pos_bound d 2 ltac:(lia)).
  repeat split; try lia.
  - intros E. exists (d / 2)%Z. lia.
  - intros (k & ->). rewrite Z.mul_comm, Z.mod_mul by lia. reflexivity.
  - intros E. exists (d / 2)%Z. lia.
  - intros (k & ->). replace (2 * k + 1)%Z with (1 + k * 2)%Z by lia. rewrite Z.mod_add by lia. reflexivity.
Qed.
Print Assumptions C83_sizes.

Example C83_example_equal : size_equal_to_range 4 4 = true /\ size_equal_to 4 5 = false /\ size_greater_than 4 5 = true /\
  size_is_even 4 = true /\ size_is_even 5 = false /\ empty_range 0 = true /\ nonempty_range 0 = false.
Proof. repeat split; reflexivity. Qed.

(* for lengths from 2^63 on, the range overloads take the length for negative *)
Theorem C83_huge_refuted :
  forall len d, (2 ^ 63 <= len < 2 ^ 64)%Z -> (0 <= d < 2 ^ 63)%Z ->
  size_less_than len d = true /\ size_less_than_range len d = false /\
  size_greater_than len d = false /\ size_greater_than_range len d = true.
Proof.
  intros len d Hl Hd. unfold size_less_than_range, size_less_than,
    size_greater_than_range, size_greater_than, to_ptrdiff, to_size_t.
  rewrite !(Z.mod_small _ (2 ^ 64)) by lia. destruct (Z.ltb_spec len (2 ^ 63)); [lia|]. lia.
Qed.
Print Assumptions C83_huge_refuted.

Example C83_example : size_less_than_range 4 3 = true /\ size_greater_than_range 4 3 = false /\ size_is_odd 3 = true.
Proof. repeat split; reflexivity. Qed.

(* C84: a list of tokens written through a converting inserter adds exactly the values of the
   convertible ones, in order, to whatever container *)
Theorem C84_convert :
  forall (T C : Type) (conv : list ascii -> option T) (put : C -> T -> C) toks c,
  write_through conv put c toks = fold_left put (converted conv toks) c.
Proof. intros T C conv put toks c. apply write_through_ok. Qed.
Print Assumptions C84_convert.

Example C84_example_set :
  let conv s := match s with ["1"%char] => Some 1 | ["2"%char] => Some 2 | _ => None end in
  write_through conv (fun s v => v :: s) [9] [str "1"; str "x"; str "2"] = [2; 1; 9] /\
  converted conv [str "1"; str "x"; str "2"] = [1; 2].
Proof. split; reflexivity. Qed.

Theorem C84_back :
  forall (T : Type) (conv : list ascii -> option T) toks c,
  write_through conv (fun s v => s ++ [v]) c toks = c ++ converted conv toks.
Proof. intros T conv toks c. rewrite write_through_ok. apply fold_push. Qed.
Print Assumptions C84_back.

Example C84_example_back :
  let conv s := match s with ["1"%char] => Some 1 | ["2"%char] => Some 2 | _ => None end in
  write_through conv (fun s v => s ++ [v]) [9] [str "2"; str "2"; []; str "1"] = [9; 2; 2; 1].
Proof. reflexivity. Qed.

(* through a pointer: the values land one after another where the pointer points and are
   counted; nothing else changes *)
Theorem C84_pointer :
  forall (T : Type) (conv : list ascii -> option T) toks pre room post n,
  length room = length (converted conv toks) ->
  ptr_write_through conv toks (pre ++ room ++ post, length pre, n) =
    Ok (pre ++ converted conv toks ++ post, length pre + length room, n + length room).
Proof. exact @ptr_ok. Qed.
Print Assumptions C84_pointer.

Example C84_example_pointer :
  let conv s := match s with ["1"%char] => Some 1 | ["2"%char] => Some 2 | _ => None end in
  ptr_write_through conv [str "?"; str "2"; str "1"] ([7] ++ [0; 0] ++ [8], 1, 5) = Ok ([7] ++ [2; 1] ++ [8], 3, 7).
Proof. reflexivity. Qed.

(* more values than room are written past the array *)
Theorem C84_pointer_overrun_refuted :
  forall (T : Type) (conv : list ascii -> option T) toks mem p n,
  p <= length mem -> length mem - p < length (converted conv toks) -> ptr_write_through conv toks (mem, p, n) = UB.
Proof. exact @ptr_ub. Qed.
Print Assumptions C84_pointer_overrun_refuted.

Example C84_pointer_overrun_refuted_ex : ptr_write_through (fun x => Some (length x)) [str "a"; str "bc"] ([0], 0, 0) = UB /\ ptr_write_through (fun x => Some (length x)) [str "a"; str "bc"] ([0; 0], 0, 0) <> UB.
Proof. split; [vm_compute; reflexivity|]. intros H. vm_compute in H. discriminate. Qed.

(* counting inserter: the counter modulo 2^64 *)
Theorem C84_count :
  forall (T : Type) (xs : list T) c, (c < 2 ^ 64)%N ->
  fold_left count_insert xs c = ((c + N.of_nat (length xs)) mod 2 ^ 64)%N.
Proof. exact @count_ok. Qed.
Print Assumptions C84_count.

Example C84_example_count : fold_left count_insert [true; false; true] (2 ^ 64 - 1)%N = 2%N.
Proof. reflexivity. Qed.

(* assigning one inserter to another copies the container instead of rebinding: what is written
   afterwards through the first does not reach the container of the second *)
Theorem C84_assignment_refuted :
  forall (C : Type) (store : nat -> C) a b, a <> b ->
  assign_inserter store a b a = store b /\ forall n, n <> a -> assign_inserter store a b n = store n.
Proof.
  intros C store a b Hab. unfold assign_inserter. destruct (Nat.eqb_spec a b) as [?|Hne]; [lia|].
  rewrite Nat.eqb_refl. split; auto. intros n Hn. destruct (Nat.eqb_spec n a); [lia|]. reflexivity.
Qed.
Print Assumptions C84_assignment_refuted.

Example C84_assignment_refuted_ex : assign_inserter (fun n => n * 10) 1 2 1 = 20 /\ assign_inserter (fun n => n * 10) 1 2 2 = 20.
Proof. repeat split; reflexivity. Qed.

(* functional_inserter: *out++ = x acts on a copy of the function object *)
Theorem C84_functional_copy_refuted :
  fold_left (functional_pre Nat.add) [1; 2; 3] 0 = 6 /\ fold_left (functional_post Nat.add) [1; 2; 3] 0 = 0.
Proof. split; reflexivity. Qed.
Print Assumptions C84_functional_copy_refuted.

Example C84_example :
  let conv s := match s with ["1"%char] => Some 1 | ["2"%char] => Some 2 | _ => None end in
  write_through conv (fun s v => s ++ [v]) [9] [str "1"; str "x"; str "2"] = [9; 1; 2] /\
  ptr_write_through conv [str "1"; str "x"; str "2"] ([7; 7; 7; 7], 1, 0) = Ok ([7; 1; 2; 7], 3, 2).
Proof. split; reflexivity. Qed.

(* C85: extract_unique appends each distinct element once, in strictly ascending order *)
Theorem C85_unique :
  forall (T : Type) (lt eqb : T -> T -> bool),
  strict_weak lt -> (forall x y, eqb x y = true <-> x = y) ->
  (forall x y, lt x y = false -> lt y x = false -> x = y) ->
  forall sort l out, sorts lt sort ->
  exists u, extract_unique sort eqb l out = out ++ u /\
    StronglySorted (fun x y => lt x y = true) u /\ forall x, In x u <-> In x l.
Proof. exact @extract_unique_ok. Qed.
Print Assumptions C85_unique.

Example C85_example_unique :
  extract_unique (fun l => match l with [5;5;2] => [2;5;5] | _ => l end) Nat.eqb [5;5;2] [] = [2;5].
Proof. reflexivity. Qed.

(* skip_while_matching stops at the first element that does not match, never beyond the end *)
Theorem C85_skip :
  forall (A : Type) (p : A -> bool) mem itr end_, itr <= end_ <= length mem ->
  exists i, skip_while_matching p mem itr end_ = Ok i /\ itr <= i <= end_ /\
    (forall k x, itr <= k < i -> nth_error mem k = Some x -> p x = true) /\
    (i = end_ \/ exists x, nth_error mem i = Some x /\ p x = false).
Proof. exact @skip_ok. Qed.
Print Assumptions C85_skip.

Example C85_example_skip : skip_while_matching Nat.even [2;4;5;6] 0 2 = Ok 2 /\ skip_while_matching Nat.even [2;4;5;6] 2 4 = Ok 2.
Proof. split; reflexivity. Qed.

Theorem C85_non_empty :
  forall toks out, exists kept,
  for_tokens filter_non_empty_range toks out = Ok (out ++ kept) /\ selects (fun r => fst r <> snd r) toks kept.
Proof. exact non_empty_ok. Qed.
Print Assumptions C85_non_empty.

Example C85_example :
  extract_unique (fun l => match l with [3;1;3;2;1] => [1;1;2;3;3] | _ => l end) Nat.eqb [3;1;3;2;1] [9] = [9;1;2;3] /\
  skip_while_matching Nat.even [2;4;5;6] 0 4 = Ok 2 /\
  for_tokens filter_non_empty_range [(0,1);(2,2);(3,5)] [] = Ok [(0,1);(3,5)].
Proof. repeat split; reflexivity. Qed.


(* The call with two iterators does what the assignment does, but a text that does not convert
   is an exception instead of being passed over *)
Theorem C84_call_throws : forall (C T : Type) (conv : list ascii -> option T) (put : C -> T -> C) (c : C) tok,
  (forall t, conv tok = Some t -> insert_converted_or_throw conv put c tok = Some (put c t) /\ insert_converted conv put c tok = put c t) /\
  (conv tok = None -> insert_converted_or_throw conv put c tok = None /\ insert_converted conv put c tok = c).
Proof. intros C T conv put c tok. unfold insert_converted_or_throw, insert_converted. split; [intros t ->|intros ->]; auto. Qed.
Print Assumptions C84_call_throws.
Example C84_call_throws_ex : insert_converted_or_throw (fun s => if length s =? 1 then Some s else None) (fun c t => c ++ [t]) [] (str "ab") = None /\
  insert_converted_or_throw (fun s => if length s =? 1 then Some s else None) (fun c t => c ++ [t]) [str "x"] (str "a") = Some [str "x"; str "a"].
Proof. split; reflexivity. Qed.
