(* Parsing and loading into sets, multisets, queues, stacks and priority queues: C106, C107. *)
From Coq Require Import Sorting.Permutation Sorting.Sorted.
From Verif Require Import Base Split_Model Split_Spec Num_Model Parse_Model Parse_Spec IO_Spec IO_Model Stl_Spec Stl_Model
  Parse_Proofs Parse_Proofs2 Parse_Proofs3 IO_Proofs Parse_Props IO_Props Stl_Proofs.
Local Open Scope nat_scope.

(* for the examples: numbers compared by their tens, so that 31 and 35 are equivalent *)
Definition by_tens (a b : Z) : bool := (a / 10 <? b / 10)%Z.
Lemma by_tens_weak : strict_weak by_tens.
Proof.
  unfold strict_weak, by_tens. split; [intros; apply Z.ltb_irrefl|]. split; intros x y z; rewrite ?Z.ltb_lt, ?Z.ltb_ge; lia.
Qed.
Definition us := conv_unsigned t_ushort n_ushort.
Definition to_set (d s : list ascii) (opt : N) (c : list Z) := parse_container us 0%Z (set_insert by_tens) d s opt c.

(* C106: the comparator need not be total: of equivalent values the first one stays *)
Theorem C106_set : forall T conv (d : T) ok lt delims s opt c toks,
  strict_weak lt -> ascending lt c ->
  tokens_of (is_delim delims) s (spec_tok_end opt) (spec_next_start opt) toks ->
  Forall (fun r => behaves conv d ok (sub s r)) toks ->
  exists vs c', converted ok (map (sub s) toks) vs /\ set_with lt c vs c' /\
    parse_container conv d (set_insert lt) delims s opt c = Ok (c', length toks).
Proof.
  intros T conv d ok lt delims s opt c toks SW A H B.
  destruct (parse_container_ok conv d (set_insert lt) ok delims s opt c toks H) as (vs & V & E).
  - exact B.
  - exists vs, (fold_left (set_insert lt) vs c). split; [auto|]. split; [now apply set_all|auto].
Qed.
Print Assumptions C106_set.

Example C106_set_example : strict_weak by_tens /\ ascending by_tens [15; 42]%Z /\
  to_set (str ",") (str "31,7,x,35,49") 1 [15; 42]%Z = Ok ([7; 15; 31; 42]%Z, 5).
Proof. split; [exact by_tens_weak|]. split; [repeat constructor|reflexivity]. Qed.

(* what set_with says determines the set *)
Theorem C106_set_unique : forall T lt (c vs c1 c2 : list T), strict_weak lt ->
  set_with lt c vs c1 -> set_with lt c vs c2 -> c1 = c2.
Proof. intros T lt c vs c1 c2 SW [A B] [A' B']. apply (ascending_ext lt SW); auto. intros x. now rewrite B, B'. Qed.
Print Assumptions C106_set_unique.

Example C106_set_unique_example : set_with by_tens [15]%Z [31; 35]%Z [15; 31]%Z /\ ~ set_with by_tens [15]%Z [31; 35]%Z [15; 35]%Z.
Proof.
  assert (H : set_with by_tens [15]%Z [31; 35]%Z [15; 31]%Z) by (apply (set_all by_tens by_tens_weak [15]%Z [31; 35]%Z); repeat constructor).
  split; [exact H|]. intros K. pose proof (C106_set_unique _ _ _ _ _ _ by_tens_weak H K). discriminate.
Qed.

(* when only equal values are equivalent: the union *)
Theorem C106_set_union : forall T lt (c vs c' : list T), strict_weak lt ->
  (forall x y, lt x y = false -> lt y x = false -> x = y) -> set_with lt c vs c' ->
  forall x, In x c' <-> In x c \/ In x vs.
Proof.
  intros T lt c vs c' SW Tot [A B] x. rewrite B, <- in_app_iff. split; [apply first_in|].
  intros H. destruct (first_exists lt SW _ _ H) as (y & F & G). apply (eqv_iff lt) in G. destruct G as [G1 G2].
  now rewrite (Tot y x G1 G2) in F.
Qed.
Print Assumptions C106_set_union.

Example C106_union_example :
  parse_container us 0%Z (set_insert Z.ltb) (str ",") (str "3,1,x,3,2") 1 [1; 9]%Z = Ok ([1; 2; 3; 9]%Z, 5).
Proof. reflexivity. Qed.

(* parse_n: at most n tokens; the result is the growth of the set *)
Theorem C106_set_n : forall T conv (d : T) ok lt delims s n opt c toks,
  (has_bit opt 2 = true -> has_bit opt 1 = true) ->
  strict_weak lt -> ascending lt c ->
  tokens_of (is_delim delims) s (spec_tok_end opt) (spec_next_start opt) toks ->
  Forall (fun r => behaves conv d ok (sub s r)) (firstn n toks) ->
  exists vs c' k, converted ok (map (sub s) (firstn n toks)) vs /\ set_with lt c vs c' /\ length c' = length c + k /\
    parse_n_container conv d (set_insert lt) (@length T) delims s n opt c = Ok (c', k).
Proof.
  intros T conv d ok lt delims s n opt c toks Ho SW A H B.
  destruct (parse_n_container_ok conv d (set_insert lt) ok (@length T) delims s n opt c toks Ho H) as (vs & V & E).
  - exact B.
  - exists vs, (fold_left (set_insert lt) vs c). eexists. split; [auto|]. split; [now apply set_all|]. split; [|exact E].
    assert (G : forall vs c, length c <= length (fold_left (set_insert lt) vs c)).
    { clear. induction vs as [|v vs IH]; intros c; cbn; [lia|]. specialize (IH (set_insert lt c v)). pose proof (set_insert_len lt c v). lia. }
    specialize (G vs c). lia.
Qed.
Print Assumptions C106_set_n.

Example C106_set_n_example :
  parse_n_container us 0%Z (set_insert by_tens) (@length Z) (str ",") (str "31,,7,35,49,80") 4 1 [15; 42]%Z = Ok ([7; 15; 31; 42]%Z, 2).
Proof. reflexivity. Qed.

Theorem C106_multiset : forall T conv (d : T) ok lt delims s opt c toks,
  strict_weak lt -> in_order lt c ->
  tokens_of (is_delim delims) s (spec_tok_end opt) (spec_next_start opt) toks ->
  Forall (fun r => behaves conv d ok (sub s r)) toks ->
  exists vs c', converted ok (map (sub s) toks) vs /\ multiset_with lt c vs c' /\
    parse_container conv d (multiset_insert lt) delims s opt c = Ok (c', length toks).
Proof.
  intros T conv d ok lt delims s opt c toks SW A H B.
  destruct (parse_container_ok conv d (multiset_insert lt) ok delims s opt c toks H) as (vs & V & E).
  - exact B.
  - exists vs, (fold_left (multiset_insert lt) vs c). split; [auto|]. split; [now apply multiset_all|auto].
Qed.
Print Assumptions C106_multiset.

Example C106_multiset_example : in_order by_tens [35; 31; 42]%Z /\
  parse_container us 0%Z (multiset_insert by_tens) (str ",") (str "39,7,x,30") 1 [35; 31; 42]%Z = Ok ([7; 35; 31; 39; 30; 42]%Z, 4).
Proof. split; [repeat constructor|reflexivity]. Qed.

Theorem C106_multiset_unique : forall T lt (c vs c1 c2 : list T), strict_weak lt ->
  multiset_with lt c vs c1 -> multiset_with lt c vs c2 -> c1 = c2.
Proof.
  intros T lt c vs c1 c2 SW (A & _ & B) (A' & _ & B'). apply (in_order_ext lt SW); auto. intros x. now rewrite B, B'.
Qed.
Print Assumptions C106_multiset_unique.

Example C106_multiset_unique_example :
  multiset_with by_tens [35]%Z [31; 7]%Z [7; 35; 31]%Z /\ ~ multiset_with by_tens [35]%Z [31; 7]%Z [7; 31; 35]%Z.
Proof.
  assert (H : multiset_with by_tens [35]%Z [31; 7]%Z [7; 35; 31]%Z) by (apply (multiset_all by_tens by_tens_weak [35]%Z [31; 7]%Z); repeat constructor).
  split; [exact H|]. intros K. pose proof (C106_multiset_unique _ _ _ _ _ _ by_tens_weak H K). discriminate.
Qed.

(* a multiset, a queue, a stack and a priority queue grow by one for every value *)
Theorem C106_multiset_n : forall T conv (d : T) ok lt delims s n opt c toks,
  (has_bit opt 2 = true -> has_bit opt 1 = true) ->
  strict_weak lt -> in_order lt c ->
  tokens_of (is_delim delims) s (spec_tok_end opt) (spec_next_start opt) toks ->
  Forall (fun r => behaves conv d ok (sub s r)) (firstn n toks) ->
  exists vs c', converted ok (map (sub s) (firstn n toks)) vs /\ multiset_with lt c vs c' /\
    parse_n_container conv d (multiset_insert lt) (@length T) delims s n opt c = Ok (c', length vs).
Proof.
  intros T conv d ok lt delims s n opt c toks Ho SW A H B.
  destruct (parse_n_container_ok conv d (multiset_insert lt) ok (@length T) delims s n opt c toks Ho H) as (vs & V & E).
  - exact B.
  - exists vs, (fold_left (multiset_insert lt) vs c). pose proof (multiset_all lt SW c vs A) as M. split; [auto|]. split; [auto|].
    rewrite E. do 2 f_equal. destruct M as (_ & P & _). apply Permutation_length in P. rewrite P, app_length. lia.
Qed.
Print Assumptions C106_multiset_n.

Example C106_multiset_n_example :
  parse_n_container us 0%Z (multiset_insert by_tens) (@length Z) (str ",") (str "39,x,30,7") 3 1 [35; 31]%Z = Ok ([35; 31; 39; 30]%Z, 2).
Proof. reflexivity. Qed.

(* a queue gets the values behind its own, a stack on top, the last one topmost *)
Theorem C106_queue_stack : forall T conv (d : T) ok delims s opt c toks,
  tokens_of (is_delim delims) s (spec_tok_end opt) (spec_next_start opt) toks ->
  Forall (fun r => behaves conv d ok (sub s r)) toks ->
  exists vs, converted ok (map (sub s) toks) vs /\
    parse_container conv d queue_push delims s opt c = Ok (c ++ vs, length toks) /\
    parse_container conv d stack_push delims s opt c = Ok (rev vs ++ c, length toks).
Proof.
  intros T conv d ok delims s opt c toks H B. pose proof B as F.
  destruct (parse_container_ok conv d queue_push ok delims s opt c toks H F) as (vs & V & E). exists vs. split; [auto|].
  rewrite queue_all in E. split; [auto|].
  destruct (parse_container_ok conv d stack_push ok delims s opt c toks H F) as (vs' & V' & E').
  rewrite (C07_converted_unique _ _ _ _ _ V V'), <- stack_all. exact E'.
Qed.
Print Assumptions C106_queue_stack.

Example C106_queue_stack_example : parse_container us 0%Z queue_push (str ",") (str "1,x,2,3") 1 [8; 9]%Z = Ok ([8; 9; 1; 2; 3]%Z, 4) /\
  parse_container us 0%Z stack_push (str ",") (str "1,x,2,3") 1 [8; 9]%Z = Ok ([3; 2; 1; 8; 9]%Z, 4).
Proof. split; reflexivity. Qed.

Theorem C106_queue_stack_n : forall T conv (d : T) ok delims s n opt c toks,
  (has_bit opt 2 = true -> has_bit opt 1 = true) ->
  tokens_of (is_delim delims) s (spec_tok_end opt) (spec_next_start opt) toks ->
  Forall (fun r => behaves conv d ok (sub s r)) (firstn n toks) ->
  exists vs, converted ok (map (sub s) (firstn n toks)) vs /\
    parse_n_container conv d queue_push (@length T) delims s n opt c = Ok (c ++ vs, length vs) /\
    parse_n_container conv d stack_push (@length T) delims s n opt c = Ok (rev vs ++ c, length vs).
Proof.
  intros T conv d ok delims s n opt c toks Ho H B. pose proof B as F.
  destruct (parse_n_container_ok conv d queue_push ok (@length T) delims s n opt c toks Ho H F) as (vs & V & E). exists vs. split; [auto|].
  rewrite queue_all, app_length in E. replace (length c + length vs - length c) with (length vs) in E by lia. split; [auto|].
  destruct (parse_n_container_ok conv d stack_push ok (@length T) delims s n opt c toks Ho H F) as (vs' & V' & E').
  rewrite (C07_converted_unique _ _ _ _ _ V V') in *. rewrite stack_all, app_length, rev_length in E'.
  replace (length vs' + length c - length c) with (length vs') in E' by lia. exact E'.
Qed.
Print Assumptions C106_queue_stack_n.

Example C106_queue_stack_n_example :
  parse_n_container us 0%Z queue_push (@length Z) (str ",") (str "1,x,2,3") 3 1 [8; 9]%Z = Ok ([8; 9; 1; 2]%Z, 2) /\
  parse_n_container us 0%Z stack_push (@length Z) (str ",") (str "1,x,2,3") 3 1 [8; 9]%Z = Ok ([2; 1; 8; 9]%Z, 2).
Proof. split; reflexivity. Qed.

(* emptying the priority queue afterwards delivers the earlier content and the values, the
   greater ones first *)
Theorem C106_priority_queue : forall T conv (d : T) ok lt delims s opt c toks,
  strict_weak lt ->
  tokens_of (is_delim delims) s (spec_tok_end opt) (spec_next_start opt) toks ->
  Forall (fun r => behaves conv d ok (sub s r)) toks ->
  exists vs c', converted ok (map (sub s) toks) vs /\
    parse_container conv d pq_push delims s opt c = Ok (c', length toks) /\
    (exists out, drains lt c' out) /\
    (forall out, drains lt c' out <-> Permutation (c ++ vs) out /\ StronglySorted (fun a b => lt a b = false) out).
Proof.
  intros T conv d ok lt delims s opt c toks SW H B.
  destruct (parse_container_ok conv d pq_push ok delims s opt c toks H) as (vs & V & E).
  - exact B.
  - exists vs, (fold_left pq_push vs c). split; [auto|]. split; [auto|]. split; [now apply drains_exists|].
    intros out. rewrite drains_iff. split; intros [P S]; (split; [|auto]); [now rewrite <- (pq_all vs c)|now rewrite (pq_all vs c)].
Qed.
Print Assumptions C106_priority_queue.

Example C106_priority_queue_example : exists c', parse_container us 0%Z pq_push (str ",") (str "4,x,30,12") 1 [20]%Z = Ok (c', 4) /\
  drains by_tens c' [30; 20; 12; 4]%Z /\ ~ drains by_tens c' [30; 12; 20; 4]%Z.
Proof.
  eexists. split; [reflexivity|]. rewrite !drains_iff. split; [split; [|repeat constructor]|].
  - apply NoDup_Permutation; [repeat constructor; cbn; intuition discriminate..|]. intros x. cbn. intuition.
  - intros [_ S]. inversion S as [|? ? S1 _]; subst. inversion S1 as [|? ? _ F]; subst. inversion F; subst. discriminate.
Qed.

Theorem C106_priority_queue_n : forall T conv (d : T) ok lt delims s n opt c toks,
  (has_bit opt 2 = true -> has_bit opt 1 = true) ->
  strict_weak lt ->
  tokens_of (is_delim delims) s (spec_tok_end opt) (spec_next_start opt) toks ->
  Forall (fun r => behaves conv d ok (sub s r)) (firstn n toks) ->
  exists vs c', converted ok (map (sub s) (firstn n toks)) vs /\
    parse_n_container conv d pq_push (@length T) delims s n opt c = Ok (c', length vs) /\
    (forall out, drains lt c' out <-> Permutation (c ++ vs) out /\ StronglySorted (fun a b => lt a b = false) out).
Proof.
  intros T conv d ok lt delims s n opt c toks Ho SW H B.
  destruct (parse_n_container_ok conv d pq_push ok (@length T) delims s n opt c toks Ho H) as (vs & V & E).
  - exact B.
  - exists vs, (fold_left pq_push vs c). split; [auto|]. split.
    + rewrite E. do 2 f_equal. rewrite (Permutation_length (pq_all vs c)), app_length. lia.
    + intros out. rewrite drains_iff. split; intros [P S]; (split; [|auto]); [now rewrite <- (pq_all vs c)|now rewrite (pq_all vs c)].
Qed.
Print Assumptions C106_priority_queue_n.

Example C106_priority_queue_n_example : exists c',
  parse_n_container us 0%Z pq_push (@length Z) (str ",") (str "4,x,30,12") 3 1 [20]%Z = Ok (c', 2) /\ drains by_tens c' [30; 20; 4]%Z.
Proof.
  eexists. split; [reflexivity|]. rewrite !drains_iff. split; [|repeat constructor].
  apply NoDup_Permutation; [repeat constructor; cbn; intuition discriminate..|]. intros x. cbn. intuition.
Qed.

(* what parse_n returns for a set is not the number of values parsed *)
Theorem C106_set_n_count_refuted : exists s vs, converted ushort_of [str "5"; str "5"; str "7"] vs /\ length vs = 3 /\
  parse_n_container us 0%Z (set_insert Z.ltb) (@length Z) (str ",") s 3 1 [7]%Z = Ok ([5; 7]%Z, 1) /\
  parse_container us 0%Z (set_insert Z.ltb) (str ",") s 1 [7]%Z = Ok ([5; 7]%Z, 3).
Proof.
  exists (str "5,5,7"), [5; 5; 7]%Z. split; [repeat constructor|]. repeat split.
Qed.
Print Assumptions C106_set_n_count_refuted.

(* parse_line into any container: the first line of the stream is taken off and parsed *)
Theorem C106_parse_line : forall T C conv (d : T) (add : C -> T -> C) st delims opt c, good st = true -> rest st <> [] ->
  exists line r, first_line (rest st) line r /\
   (line = [] \/ delims = [] -> parse_line_container conv d add st delims opt c = Ok (c, 0, Stream r true)) /\
   (line <> [] -> delims <> [] -> forall c' n, parse_container conv d add delims line opt c = Ok (c', n) ->
      parse_line_container conv d add st delims opt c = Ok (c', n, Stream r true)).
Proof.
  intros T C conv d add st delims opt c Hg Hr. destruct (take_line (rest st)) as [line r] eqn:E. exists line, r.
  pose proof (Parse_Proofs2.take_line_ok (rest st)) as H. rewrite E in H. split; [exact H|].
  unfold parse_line_container, getline. rewrite Hg. cbn [negb]. destruct (rest st) as [|x s]; [congruence|]. rewrite E. split.
  - intros [->| ->]; cbn [length Nat.eqb orb]; [reflexivity|]. now rewrite orb_true_r.
  - intros H1 H2 c' n P. destruct line; [congruence|]. destruct delims; [congruence|]. cbn [length Nat.eqb orb]. rewrite P. reflexivity.
Qed.
Print Assumptions C106_parse_line.

Example C106_parse_line_example : let st := Stream (str "3,1,3" ++ newline :: str "9") true in
  parse_line_container us 0%Z (set_insert Z.ltb) st (str ",") 1 [2]%Z = Ok ([1; 2; 3]%Z, 3, Stream (str "9") true) /\
  parse_line_container us 0%Z (set_insert Z.ltb) (Stream (newline :: str "9") true) (str ",") 1 [2]%Z = Ok ([2]%Z, 0, Stream (str "9") true).
Proof. split; reflexivity. Qed.

Theorem C106_parse_line_n : forall T C conv (d : T) (add : C -> T -> C) size st delims m opt c, good st = true -> rest st <> [] ->
  exists line r, first_line (rest st) line r /\
   (line = [] \/ delims = [] -> parse_line_n_container conv d add size st delims m opt c = Ok (c, 0, Stream r true)) /\
   (line <> [] -> delims <> [] -> forall c' n, parse_n_container conv d add size delims line m opt c = Ok (c', n) ->
      parse_line_n_container conv d add size st delims m opt c = Ok (c', n, Stream r true)).
Proof.
  intros T C conv d add size st delims m opt c Hg Hr. destruct (take_line (rest st)) as [line r] eqn:E. exists line, r.
  pose proof (Parse_Proofs2.take_line_ok (rest st)) as H. rewrite E in H. split; [exact H|].
  unfold parse_line_n_container, getline. rewrite Hg. cbn [negb]. destruct (rest st) as [|x s]; [congruence|]. rewrite E. split.
  - intros [->| ->]; cbn [length Nat.eqb orb]; [reflexivity|]. now rewrite orb_true_r.
  - intros H1 H2 c' n P. destruct line; [congruence|]. destruct delims; [congruence|]. cbn [length Nat.eqb orb]. rewrite P. reflexivity.
Qed.
Print Assumptions C106_parse_line_n.

Example C106_parse_line_n_example : let st := Stream (str "3,1,3" ++ newline :: str "9") true in
  parse_line_n_container us 0%Z (set_insert Z.ltb) (@length Z) st (str ",") 2 1 [3]%Z = Ok ([1; 3]%Z, 1, Stream (str "9") true).
Proof. reflexivity. Qed.

Theorem C106_line_end_of_stream : forall T C conv (d : T) (add : C -> T -> C) size st delims m opt c, good st = false \/ rest st = [] ->
  exists st', parse_line_container conv d add st delims opt c = Ok (c, 0, st') /\
    parse_line_n_container conv d add size st delims m opt c = Ok (c, 0, st') /\ good st' = false /\ rest st' = rest st.
Proof.
  intros T C conv d add size st delims m opt c H. unfold parse_line_container, parse_line_n_container, getline. destruct (good st) eqn:Eg; cbn [negb].
  - destruct H as [H|H]; [discriminate|]. rewrite H. exists (Stream [] false). auto.
  - exists st. auto.
Qed.
Print Assumptions C106_line_end_of_stream.

Example C106_line_end_example :
  parse_line_container us 0%Z (set_insert Z.ltb) (Stream [] true) (str ",") 1 [2]%Z = Ok ([2]%Z, 0, Stream [] false).
Proof. reflexivity. Qed.

(* C107 *)
(* the values of the lines go into the container one after the other, up to a line that does
   not convert: there the function is left by an exception, after one more line was read *)
Theorem C107_load : forall T C (add : C -> T -> C) (conv : list ascii -> option T) s ls vs b c,
  lines_of s ls -> values_of conv ls vs b ->
  exists n st, load_into add conv (Stream s true) c = Ok (b, n, fold_left add vs c, st) /\
    n = length vs + (if b then 0 else 1) /\ (b = true -> n = length ls /\ st = Stream [] false).
Proof. intros. eapply load_into_ok; eauto. Qed.
Print Assumptions C107_load.

Example C107_load_example :
  load_into (set_insert Z.ltb) ushort_of (Stream (str "5" ++ newline :: str "3" ++ newline :: str "5") true) [4]%Z = Ok (true, 3, [3; 4; 5]%Z, Stream [] false) /\
  load_into stack_push ushort_of (Stream (str "5" ++ newline :: str "x" ++ newline :: str "6") true) [4]%Z = Ok (false, 2, [5; 4]%Z, Stream (str "6") true).
Proof. split; reflexivity. Qed.

(* for a vector this is the function of C37 *)
Theorem C107_load_sequence : forall T (conv : list ascii -> option T) st sq,
  load_into queue_push conv st sq = load_from_text_file conv st sq.
Proof. reflexivity. Qed.
Print Assumptions C107_load_sequence.

Example C107_load_sequence_example :
  load_into queue_push ushort_of (Stream (str "5" ++ newline :: str "3") true) [4]%Z = Ok (true, 2, [4; 5; 3]%Z, Stream [] false).
Proof. reflexivity. Qed.

(* the containers after loading *)
Theorem C107_containers : forall T lt (c vs : list T), strict_weak lt ->
  (ascending lt c -> set_with lt c vs (fold_left (set_insert lt) vs c)) /\
  (in_order lt c -> multiset_with lt c vs (fold_left (multiset_insert lt) vs c)) /\
  fold_left queue_push vs c = c ++ vs /\ fold_left stack_push vs c = rev vs ++ c /\
  (forall out, drains lt (fold_left pq_push vs c) out <-> Permutation (c ++ vs) out /\ StronglySorted (fun a b => lt a b = false) out).
Proof.
  intros T lt c vs SW. split; [intros; now apply set_all|]. split; [intros; now apply multiset_all|]. split; [apply queue_all|].
  split; [apply stack_all|]. intros out. rewrite drains_iff. split; intros [P S]; (split; [|auto]); [now rewrite <- (pq_all vs c)|now rewrite (pq_all vs c)].
Qed.
Print Assumptions C107_containers.

Example C107_containers_example : let vs := [31; 7; 35]%Z in
  fold_left (set_insert by_tens) vs [15]%Z = [7; 15; 31]%Z /\ fold_left (multiset_insert by_tens) vs [15]%Z = [7; 15; 31; 35]%Z /\
  fold_left queue_push vs [15]%Z = [15; 31; 7; 35]%Z /\ fold_left stack_push vs [15]%Z = [35; 7; 31; 15]%Z.
Proof. repeat split; reflexivity. Qed.

(* by file name: the same, or nothing if the file cannot be opened *)
Theorem C107_load_file : forall T C (add : C -> T -> C) (conv : list ascii -> option T) fs f ls vs b c,
  lines_of (contents fs f) ls -> values_of conv ls vs b ->
  load_from_file add conv fs f c =
    if can_open fs f then Ok (b, length vs + (if b then 0 else 1), fold_left add vs c) else Ok (true, 0, c).
Proof.
  intros T C add conv fs f ls vs b c H V. unfold load_from_file, ifstream. destruct (can_open fs f); [|reflexivity]. cbn [good negb].
  destruct (load_into_ok add conv _ _ _ _ c H V) as (n & st & E & -> & _). rewrite E. reflexivity.
Qed.
Print Assumptions C107_load_file.

Example C107_load_file_example :
  let fs := FSys (fun n => if n =? 0 then Some (str "5" ++ newline :: str "3") else None) (fun _ => true) (fun _ => true) in
  load_from_file (set_insert Z.ltb) ushort_of fs 0 [4]%Z = Ok (true, 2, [3; 4; 5]%Z) /\ load_from_file (set_insert Z.ltb) ushort_of fs 1 [4]%Z = Ok (true, 0, [4]%Z).
Proof. split; reflexivity. Qed.

Theorem C107_write_file : forall T (show : T -> list ascii) fs f xs d,
  match write_to_file show fs f xs d with
  | (k, fs') => if f_write fs f then k = length xs /\ file_is fs fs' f (concat (map (fun x => show x ++ d) xs)) else k = 0 /\ fs' = fs
  end.
Proof. intros. apply write_to_file_ok. Qed.
Print Assumptions C107_write_file.

Example C107_write_file_example : let (k, fs) := write_to_file (fun l => l) demo_fs 2 [str "one"; str "two"] (str "; ") in
  k = 2 /\ f_data fs 2 = Some (str "one; two; ") /\ f_data fs 1 = Some (str "xyz").
Proof. repeat split. Qed.

(* write a set (its elements in order) to a file, a line each, and load it again: the same
   set; likewise a multiset; a stack comes back upside down *)
Theorem C107_set_round_trip : forall T lt (show : T -> list ascii) conv fs f xs, strict_weak lt -> ascending lt xs ->
  (forall x, In x xs -> ~ In newline (show x) /\ conv (show x) = Some x) -> f_write fs f = true -> f_read fs f = true ->
  exists fs', write_to_file show fs f xs [newline] = (length xs, fs') /\
    load_from_file (set_insert lt) conv fs' f [] = Ok (true, length xs, xs) /\
    load_from_file (multiset_insert lt) conv fs' f [] = Ok (true, length xs, xs) /\
    load_from_file queue_push conv fs' f [] = Ok (true, length xs, xs) /\
    load_from_file stack_push conv fs' f [] = Ok (true, length xs, rev xs).
Proof.
  intros T lt show conv fs f xs SW A H W R. pose proof (write_to_file_ok show fs f xs [newline]) as K.
  destruct (write_to_file show fs f xs [newline]) as [k fs']. rewrite W in K. destruct K as [-> (K1 & K2 & K3)]. exists fs'. split; [auto|].
  assert (O : can_open fs' f = true). { unfold can_open. rewrite K2, R, K1, Nat.eqb_refl. reflexivity. }
  assert (L : lines_of (contents fs' f) (map show xs)).
  { unfold contents. rewrite K1, Nat.eqb_refl. rewrite <- (map_map show (fun l => l ++ [newline])). apply written_lines. rewrite Forall_forall. intros l Hin.
    apply in_map_iff in Hin. destruct Hin as (x & <- & Hx). now apply H. }
  assert (V : values_of conv (map show xs) xs true) by (apply values_all; intros x Hx; now apply H).
  assert (G : forall C (add : C -> T -> C) c, load_from_file add conv fs' f c = Ok (true, length xs, fold_left add xs c)).
  { intros C add c. rewrite (C107_load_file _ _ add conv fs' f _ _ _ c L V), O, Nat.add_0_r. reflexivity. }
  rewrite !G, queue_all, stack_all, app_nil_r. cbn [app]. split; [|split; [|auto]]; do 2 f_equal.
  - destruct (set_all lt SW [] xs ltac:(constructor)) as [S1 S2]. cbn in S2. apply (ascending_ext lt SW); auto. intros x. rewrite S2.
    symmetry. now apply first_self.
  - destruct (multiset_all lt SW [] xs ltac:(constructor)) as (S1 & _ & S3). apply (in_order_ext lt SW); auto.
    clear -A SW. unfold ascending, in_order in *. induction A as [|a l S IH F]; constructor; auto. revert F. apply Forall_impl. intros b. now apply lt_asym.
Qed.
Print Assumptions C107_set_round_trip.

Example C107_round_trip_example : let show (l : list ascii) := l in let lt (a b : list ascii) := length a <? length b in
  ascending lt [[]; str "a"; str "bc"] /\
  let (k, fs) := write_to_file show demo_fs 2 [[]; str "a"; str "bc"] [newline] in
  k = 3 /\ f_data fs 2 = Some ([newline] ++ str "a" ++ [newline] ++ str "bc" ++ [newline]) /\
  load_from_file (set_insert lt) Some fs 2 [] = Ok (true, 3, [[]; str "a"; str "bc"]).
Proof. split; [repeat constructor|]. repeat split. Qed.

(* the functions on lines, by file name *)
Theorem C107_lines_of_file : forall St (f : St -> list ascii -> St) m fs file ls x,
  lines_of (contents fs file) ls ->
  for_each_line_file f fs file x = (if can_open fs file then Ok (length ls, fold_left f ls x) else Ok (0, x)) /\
  for_each_line_n_file m f fs file x =
    (if can_open fs file then Ok (length (limit m ls), fold_left f (limit m ls) x) else Ok (0, x)).
Proof.
  intros St f m fs file ls x H. unfold for_each_line_file, for_each_line_n_file, ifstream. destruct (can_open fs file); [|auto]. cbn [good].
  rewrite (for_each_line_ok f _ _ H). destruct (for_each_line_n_ok m f _ _ H x) as (st & E & _). rewrite E. auto.
Qed.
Print Assumptions C107_lines_of_file.

Example C107_lines_example : let fs := FSys (fun n => if n =? 0 then Some (str "a" ++ newline :: str "b") else None) (fun _ => true) (fun _ => true) in
  for_each_line_file (fun x l => x ++ l) fs 0 [] = Ok (2, str "ab") /\ for_each_line_n_file 1 (fun x l => x ++ l) fs 0 [] = Ok (1, str "a") /\
  for_each_line_file (fun x l => x ++ l) fs 1 [] = Ok (0, []).
Proof. repeat split. Qed.

Theorem C107_lines_of_file_conditional : forall St (f : St -> list ascii -> St * bool) m fs file ls x,
  lines_of (contents fs file) ls ->
  (forall x' n b, accepted f x ls x' n b ->
     for_each_line_conditional_file f fs file x = if can_open fs file then Ok (n, x') else Ok (0, x)) /\
  (forall x' n b, accepted f x (limit m ls) x' n b ->
     for_each_line_n_conditional_file m f fs file x = if can_open fs file then Ok (n, x') else Ok (0, x)).
Proof.
  intros St f m fs file ls x H. unfold for_each_line_conditional_file, for_each_line_n_conditional_file, ifstream.
  destruct (can_open fs file); [|auto]. cbn [good]. split; intros x' n b A.
  - edestruct (for_each_line_conditional_ok f) as (st & E & _); eauto. rewrite E. reflexivity.
  - edestruct (for_each_line_n_conditional_ok m f) as (st & E); eauto. rewrite E. reflexivity.
Qed.
Print Assumptions C107_lines_of_file_conditional.

Example C107_conditional_example : let fs := FSys (fun n => if n =? 0 then Some (str "a" ++ newline :: newline :: str "b") else None) (fun _ => true) (fun _ => true) in
  for_each_line_conditional_file (fun x l => (x ++ l, negb (length l =? 0))) fs 0 [] = Ok (1, str "a") /\
  for_each_line_n_conditional_file 3 (fun x l => (x ++ l, true)) fs 0 [] = Ok (3, str "ab") /\
  for_each_line_n_conditional_file 3 (fun x l => (x ++ l, true)) fs 7 (str "z") = Ok (0, str "z").
Proof. repeat split. Qed.

(* one line as a value *)
Theorem C107_read_line_as_value : forall T (conv : converter T) st (t : T),
  (good st = false \/ rest st = [] -> exists st', read_line_as_value conv st t = Ok (false, t, st') /\ good st' = false) /\
  (good st = true -> rest st <> [] -> exists line r, first_line (rest st) line r /\
     forall b t', conv line t = Ok (b, t') -> read_line_as_value conv st t = Ok (b, t', Stream r true)).
Proof.
  intros T conv st t. unfold read_line_as_value, getline. split.
  - intros [H|H]; [rewrite H; exists st; auto|]. rewrite H. destruct (good st) eqn:E; cbn [negb]; [exists (Stream [] false)|exists st]; auto.
  - intros Hg Hr. destruct (take_line (rest st)) as [line r] eqn:E. exists line, r. pose proof (Parse_Proofs2.take_line_ok (rest st)) as H. rewrite E in H.
    split; [exact H|]. intros b t' C. rewrite Hg. cbn [negb]. destruct (rest st); [congruence|]. rewrite E, C. reflexivity.
Qed.
Print Assumptions C107_read_line_as_value.

Example C107_read_line_example :
  read_line_as_value us (Stream (str "12" ++ newline :: str "x") true) 0%Z = Ok (true, 12%Z, Stream (str "x") true) /\
  read_line_as_value us (Stream (str "x") true) 12%Z = Ok (false, 12%Z, Stream [] true).
Proof. split; reflexivity. Qed.
