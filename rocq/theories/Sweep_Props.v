(* Filling several containers from one text, values followed by a list, and the demonstrations of the
   prefix trie: C163, C164, C165. *)
From Verif Require Import Base Split_Model Num_Model Num_Spec Parse_Model Parse_Spec Sink_Model Trie_Model Tour_Model Parse_Props Fields_Proofs Record_Spec Sweep_Model Sweep_Spec Sweep_Proofs.
Local Open Scope nat_scope.

(* C163 *)
Definition number (n : option nat) : elements := match n with None => All | Some n => Count n end.
Theorem C163_sinks : forall T (conv_t : converter T) zero_t (says_real : list ascii -> T -> Prop),
  (forall y v, says_real y v -> conv_t y zero_t = Ok (true, v)) ->
  forall n1 n2 n3 x1 x2 x3 vs1 vs2 vs3, Forall (fun x => ~ In "|"%char x) [x1; x2; x3] ->
  listed says_int x1 vs1 -> listed eq x2 vs2 -> listed says_real x3 vs3 ->
  sinks_block conv_t zero_t (number n1) (number n2) (number n3) (separated (str "|") [x1; x2; x3]) =
    Ok (enough n1 vs1 && enough n2 vs2 && enough n3 vs3,
        three_sinks conv_t zero_t (number n1) (number n2) (number n3) (taken n1 vs1) (if enough n1 vs1 then taken n2 vs2 else [])
          (if enough n1 vs1 && enough n2 vs2 then taken n3 vs3 else [])).
Proof. exact (fun T c z s H n1 n2 n3 => three_ok c z s H n1 n2 n3). Qed.
Print Assumptions C163_sinks.

Definition real_z := conv_signed t_int n_int.
Example C163_sinks_example :
  sinks_block real_z 0%Z All All All (str "1,+2,-3|abc,ijk,xyz|123,+234,-345") =
    Ok (true, three_sinks real_z 0%Z All All All [1; 2; -3]%Z [str "abc"; str "ijk"; str "xyz"] [123; 234; -345]%Z) /\
  sinks_block real_z 0%Z (Count 2) (Count 3) (Count 4) (str "1,+2,-3,4|abc,ijk,rst,xyz|123,+234,-345,456,567") =
    Ok (true, three_sinks real_z 0%Z (Count 2) (Count 3) (Count 4) [1; 2]%Z [str "abc"; str "ijk"; str "rst"] [123; 234; -345; 456]%Z).
Proof. split; reflexivity. Qed.
Example C163_short_example :
  sinks_block real_z 0%Z (Count 2) (Count 3) (Count 4) (str "1,+2,-3|abc,ijk|123,+234,-345,456,567") =
    Ok (false, three_sinks real_z 0%Z (Count 2) (Count 3) (Count 4) [1; 2]%Z [str "abc"; str "ijk"] []).
Proof. reflexivity. Qed.

(* C164: all of the list *)
Theorem C164_rest : forall T C (conv_t : converter T) zero_t (says_real : list ascii -> T -> Prop) (add : C -> T -> C),
  (forall y v, says_real y v -> conv_t y zero_t = Ok (true, v)) ->
  forall s1 s2 x3 i texts vs c, Forall (fun t => t <> [] /\ ~ In ","%char t) (s1 :: s2 :: x3 :: texts) ->
  says_int x3 i -> texts <> [] -> Forall2 says_real texts vs ->
  rest_block conv_t zero_t add c (separated (str ",") (s1 :: s2 :: x3 :: texts)) =
    Ok (true, [Target (list ascii) conv_string s1; Target (list ascii) conv_string s2; Target Z (conv_signed t_int n_int) i], fold_left add vs c).
Proof.
  intros T C conv_t zero_t says_real add Hs s1 s2 x3 i texts vs c Hf Hi Hne Hv.
  pose proof (rest_ok conv_t zero_t says_real add Hs s1 s2 x3 i texts vs [] [] c) as H. cbn [app length Nat.eqb] in H. rewrite app_nil_r in H.
  apply H; auto.
Qed.
Print Assumptions C164_rest.

Example C164_rest_example :
  rest_block real_z 0%Z (fun c v => c ++ [v]) [] (str "A String Value,01-01-2000,123456789,111,222,333") =
    Ok (true, [Target (list ascii) conv_string (str "A String Value"); Target (list ascii) conv_string (str "01-01-2000");
               Target Z (conv_signed t_int n_int) 123456789%Z], [111; 222; 333]%Z).
Proof. reflexivity. Qed.

(* a text that is no value ends the list: what stands before it has been added, the answer is no *)
Theorem C164_stops : forall T C (conv_t : converter T) zero_t (says_real : list ascii -> T -> Prop) (add : C -> T -> C),
  (forall y v, says_real y v -> conv_t y zero_t = Ok (true, v)) ->
  forall s1 s2 x3 i texts vs bad more c, Forall (fun t => t <> [] /\ ~ In ","%char t) (s1 :: s2 :: x3 :: texts ++ bad :: more) ->
  says_int x3 i -> Forall2 says_real texts vs -> (exists v, conv_t bad zero_t = Ok (false, v)) ->
  Forall (fun x => exists b v, conv_t x zero_t = Ok (b, v)) more ->
  rest_block conv_t zero_t add c (separated (str ",") (s1 :: s2 :: x3 :: texts ++ bad :: more)) =
    Ok (false, [Target (list ascii) conv_string s1; Target (list ascii) conv_string s2; Target Z (conv_signed t_int n_int) i], fold_left add vs c).
Proof.
  intros T C conv_t zero_t says_real add Hs s1 s2 x3 i texts vs bad more c Hf Hi Hv Hbad Hm.
  apply (rest_ok conv_t zero_t says_real add Hs s1 s2 x3 i texts vs [bad] more c); auto. discriminate.
Qed.
Print Assumptions C164_stops.

Example C164_stops_example :
  rest_block real_z 0%Z (fun c v => c ++ [v]) [7]%Z (str "A String Value,01-01-2000,123456789,111,x,333") =
    Ok (false, [Target (list ascii) conv_string (str "A String Value"); Target (list ascii) conv_string (str "01-01-2000");
                Target Z (conv_signed t_int n_int) 123456789%Z], [7; 111]%Z).
Proof. reflexivity. Qed.

(* no list at all: nothing is written, not even the values before it *)
Theorem C164_nothing : forall T C (conv_t : converter T) zero_t (add : C -> T -> C) s1 s2 x3 c,
  Forall (fun t => t <> [] /\ ~ In ","%char t) [s1; s2; x3] ->
  rest_block conv_t zero_t add c (separated (str ",") [s1; s2; x3]) =
    Ok (false, [Target (list ascii) conv_string []; Target (list ascii) conv_string []; Target Z (conv_signed t_int n_int) 0%Z], c).
Proof. exact @rest_none. Qed.
Print Assumptions C164_nothing.

Example C164_nothing_example :
  rest_block real_z 0%Z (fun c v => c ++ [v]) [7]%Z (str "A String Value,01-01-2000,123456789") =
    Ok (false, [Target (list ascii) conv_string []; Target (list ascii) conv_string []; Target Z (conv_signed t_int n_int) 0%Z], [7]%Z).
Proof. reflexivity. Qed.

(* C165: every key is found as a prefix and with its own position *)
Theorem C165_positions : forall keys, Forall (fun k => k <> []) keys -> unlike keys -> (Z.of_nat (length keys) < 10 ^ 20)%Z ->
  exists out, numbered 0 keys out /\
    trie_example00 keys = Ok (concat (map (fun k => str "Found Prefix: " ++ k ++ [ascii_of_nat 10]) keys) ++ out).
Proof.
  intros keys Hne Hu Hl. destruct (numbered_ok keys 0 Hl) as (outs & Hn & Ho). exists (concat outs). split; [exact Hn|].
  unfold trie_example00. assert (E : map fst (combine keys (seq 0 (length keys))) = keys) by (apply combine_fst; now rewrite seq_length).
  rewrite (trie_lines_ok Ascii.eqb Ascii.eqb_eq (fun s => s) _ _ outs); rewrite ?E; auto.
  rewrite <- E in Hne. now rewrite Forall_map in Hne.
Qed.
Print Assumptions C165_positions.

Example C165_positions_example : unlike [str "a"; str "ab"; str "abc"] /\ trie_example00 [str "a"; str "ab"; str "abc"] =
  Ok (str "Found Prefix: a" ++ [newline] ++ str "Found Prefix: ab" ++ [newline] ++ str "Found Prefix: abc" ++ [newline] ++
      str "Found: (a,0)" ++ [newline] ++ str "Found: (ab,1)" ++ [newline] ++ str "Found: (abc,2)" ++ [newline]).
Proof.
  split; [|vm_compute; reflexivity].
  assert (H : forall k k' : list ascii, length k <> length k' -> ~ alike k k').
  { intros k k' Hl (w & c & c' & -> & ->). apply Hl. rewrite !app_length. reflexivity. }
  repeat split; intros k' Hi; cbn in Hi; repeat destruct Hi as [<-|Hi]; try contradiction; apply H; cbn; lia.
Qed.

Theorem C165_values : forall K (keq : K -> K -> bool) (f : K -> list ascii), (forall a b, keq a b = true <-> a = b) ->
  forall pairs, Forall (fun p => fst p <> []) pairs -> unlike (map fst pairs) ->
  trie_example01 keq f pairs =
    Ok (concat (map (fun p => str "Found Prefix: " ++ separated (str ",") (map f (fst p)) ++ [ascii_of_nat 10]) pairs) ++
        concat (map (fun p => str "Found Prefix: " ++ separated (str ",") (map f (fst p)) ++ str " = " ++ snd p ++ [ascii_of_nat 10]) pairs)).
Proof.
  intros K keq f Hk pairs Hne Hu. unfold trie_example01.
  rewrite (trie_lines_ok keq Hk _ _ pairs
    (map (fun p => str "Found Prefix: " ++ separated (str ",") (map f (fst p)) ++ str " = " ++ snd p ++ [ascii_of_nat 10]) pairs) Hne Hu).
  - do 2 f_equal. f_equal. rewrite map_map. apply map_ext. intros p. now rewrite C35_join.
  - clear. induction pairs as [|p pairs IH]; constructor; [|exact IH]. now rewrite C35_join.
Qed.
Print Assumptions C165_values.

Example C165_values_example : trie_example01 Ascii.eqb (fun c => [c]) [(str "1234", str " 1,  2,  3,  4"); (str "5678", str " 5,  6,  7,  8")] =
  Ok (str "Found Prefix: 1,2,3,4" ++ [newline] ++ str "Found Prefix: 5,6,7,8" ++ [newline] ++
      str "Found Prefix: 1,2,3,4 =  1,  2,  3,  4" ++ [newline] ++ str "Found Prefix: 5,6,7,8 =  5,  6,  7,  8" ++ [newline]).
Proof. vm_compute. reflexivity. Qed.

(* keys that differ in the last element only share one value: the last one given *)
Theorem C165_positions_refuted : exists keys, NoDup keys /\ Forall (fun k => k <> []) keys /\
  forall out, numbered 0 keys out ->
    trie_example00 keys <> Ok (concat (map (fun k => str "Found Prefix: " ++ k ++ [ascii_of_nat 10]) keys) ++ out).
Proof. exists [str "ab"; str "ac"]. exact alike_keys. Qed.
Print Assumptions C165_positions_refuted.

Example C165_refuted_example : trie_example00 [str "ab"; str "ac"] =
  Ok (str "Found Prefix: ab" ++ [newline] ++ str "Found Prefix: ac" ++ [newline] ++ str "Found: (ab,1)" ++ [newline] ++ str "Found: (ac,1)" ++ [newline]).
Proof. vm_compute. reflexivity. Qed.
