(* Properties C86 (pod values in memory) and C87 (pod values in files). *)
From Verif Require Import Base IO_Model Pod_Model Pod_Spec Pod_Proofs.
Local Open Scope nat_scope.

(* C86: write_pod lays the values one after another, changes nothing else and returns the
   pointer after the last one *)
Theorem C86_write :
  forall ts pre room post, length room = length (concat ts) ->
  write_pod (pre ++ room ++ post) (length pre) ts = Ok (pre ++ concat ts ++ post, length pre + length room).
Proof. exact write_pod_ok. Qed.
Print Assumptions C86_write.

Example C86_write_example : write_pod (str "..????...") 2 [str "a"; str "123"] = Ok (str "..a123...", 6).
Proof. reflexivity. Qed.

(* read_pod cuts the bytes into the values *)
Theorem C86_read :
  forall sizes pre bytes post, length bytes = total sizes ->
  read_pod (pre ++ bytes ++ post) (length pre) sizes = Ok (pieces sizes bytes, length pre + length bytes).
Proof. exact read_pod_ok. Qed.
Print Assumptions C86_read.

Example C86_read_example : read_pod (str "..a123...") 2 [1; 3] = Ok ([str "a"; str "123"], 6) /\ pieces [1; 3] (str "a123") = [str "a"; str "123"].
Proof. split; reflexivity. Qed.

(* what write_pod wrote, read_pod reads back *)
Theorem C86_round_trip :
  forall ts mem data, data + length (concat ts) <= length mem ->
  exists mem', write_pod mem data ts = Ok (mem', data + length (concat ts)) /\
    read_pod mem' data (map (@length ascii) ts) = Ok (ts, data + length (concat ts)).
Proof.
  intros ts mem data H.
  pose proof (write_pod_ok ts (firstn data mem) (firstn (length (concat ts)) (skipn data mem))
                (skipn (length (concat ts)) (skipn data mem))) as W.
  pose proof (read_pod_ok (map (@length ascii) ts) (firstn data mem) (concat ts)
                (skipn (length (concat ts)) (skipn data mem))) as R.
  rewrite firstn_skipn, (firstn_skipn data mem) in W.
  rewrite !firstn_length, skipn_length in W. rewrite firstn_length in R.
  replace (Nat.min data (length mem)) with data in * by lia.
  replace (Nat.min (length (concat ts)) (length mem - data)) with (length (concat ts)) in W by lia.
  eexists. split; [apply W; reflexivity|]. rewrite R by apply total_concat. now rewrite pieces_concat.
Qed.
Print Assumptions C86_round_trip.

Example C86_round_trip_example :
  (' (mem, _) <- write_pod (str "........") 1 [str "ab"; str "c"; str "defg"] ;; read_pod mem 1 [2; 1; 4]) = Ok ([str "ab"; str "c"; str "defg"], 8).
Proof. reflexivity. Qed.

(* too little memory makes both undefined *)
Theorem C86_bounds_refuted :
  (forall ts mem data, data <= length mem -> length mem < data + length (concat ts) -> write_pod mem data ts = UB) /\
  (forall sizes mem data, data <= length mem -> length mem < data + total sizes -> read_pod mem data sizes = UB).
Proof. split; [exact write_pod_ub|exact read_pod_ub]. Qed.
Print Assumptions C86_bounds_refuted.

Example C86_bounds_refuted_ex : write_pod (repeat zero 3) 1 [str "abc"] = UB /\ read_pod (repeat zero 3) 1 [2; 1] = UB.
Proof. split; reflexivity. Qed.

(* arrays: written like their elements one by one; read back if the address is aligned for
   the element type *)
Theorem C86_array :
  forall base align size ts mem data, align <> 0 -> size mod align = 0 ->
  (base + data) mod align = 0 -> Forall (fun t => length t = size) ts ->
  data + length (concat ts) <= length mem ->
  exists mem', write_pod_array mem data ts = Ok (mem', data + length (concat ts)) /\
    write_pod mem data ts = Ok (mem', data + length (concat ts)) /\
    read_pod_array base align size mem' data (length ts) = Ok (ts, data + length (concat ts)).
Proof.
  intros base align size ts mem data Ha Hs Hb Hf H.
  pose proof (write_pod_ok ts (firstn data mem) (firstn (length (concat ts)) (skipn data mem))
                (skipn (length (concat ts)) (skipn data mem))) as W.
  pose proof (write_array_ok ts (firstn data mem) (firstn (length (concat ts)) (skipn data mem))
                (skipn (length (concat ts)) (skipn data mem))) as WA.
  pose proof (read_array_ok base align size (length ts) Ha Hs (firstn data mem) (concat ts)
                (skipn (length (concat ts)) (skipn data mem))) as R.
  rewrite firstn_skipn, (firstn_skipn data mem) in W, WA.
  rewrite !firstn_length, skipn_length in W, WA. rewrite firstn_length in R.
  replace (Nat.min data (length mem)) with data in * by lia.
  replace (Nat.min (length (concat ts)) (length mem - data)) with (length (concat ts)) in W, WA by lia.
  assert (Hm : map (@length ascii) ts = repeat size (length ts)).
  { clear -Hf. induction Hf; simpl; congruence. }
  assert (Hl : length (concat ts) = length ts * size).
  { rewrite total_concat, Hm. clear. induction (length ts) as [|n IH]; simpl; [reflexivity|]. now rewrite IH. }
  eexists. split; [apply WA; reflexivity|]. split; [apply W; reflexivity|].
  rewrite R by auto. rewrite <- Hm, pieces_concat, Hl. reflexivity.
Qed.
Print Assumptions C86_array.

Example C86_array_example :
  write_pod_array (str "............") 2 [str "1234"; str "5678"] = Ok (str "..12345678..", 10) /\
  read_pod_array 1026 4 4 (str "..12345678..") 2 2 = Ok ([str "1234"; str "5678"], 10).
Proof. split; reflexivity. Qed.

(* at an address not aligned for the element type reading an array is undefined *)
Theorem C86_alignment_refuted :
  forall base align size mem data n, n <> 0 -> (base + data) mod align <> 0 ->
  read_pod_array base align size mem data n = UB.
Proof. exact read_array_misaligned. Qed.
Print Assumptions C86_alignment_refuted.

(* for instance what one char and an array of int wrote *)
Example C86_example :
  let mem := str "................" in
  write_pod mem 2 [str "a"; str "1234"] = Ok (str "..a1234.........", 7) /\
  read_pod (str "..a1234.........") 2 [1; 4] = Ok ([str "a"; str "1234"], 7) /\
  write_pod_array (str "a...............") 1 [str "1234"; str "5678"] = Ok (str "a12345678.......", 9) /\
  read_pod_array 1024 4 4 (str "a12345678.......") 1 2 = UB.
Proof. repeat split; reflexivity. Qed.

(* C87: reading values from a file of which rest is left: the bytes there are go into the
   variables in order, those not reached keep what they had; the result says whether there
   were enough, and so does the state of the stream *)
Theorem C87_read :
  forall fs n ts p,
  let rest := skipn p (contents fs n) in
  let got := firstn (length (concat ts)) rest in
  exists ts', file_read_pod fs (IFS n p true) ts =
      Ok (length (concat ts) <=? length rest, ts', IFS n (p + length got) (length (concat ts) <=? length rest)) /\
    map (@length _) ts' = map (@length _) ts /\
    concat ts' = map Some got ++ skipn (length got) (concat ts).
Proof. exact file_read_ok. Qed.
Print Assumptions C87_read.

Example C87_read_example :
  let fs := FSys (fun n => if n =? 0 then Some (str "abc") else None) (fun _ => true) (fun _ => true) in
  file_read_pod fs (IFS 0 0 true) [[None]; [Some "x"%char; Some "y"%char; Some "z"%char]] =
    Ok (false, [[Some "a"%char]; [Some "b"%char; Some "c"%char; Some "z"%char]], IFS 0 3 false).
Proof. reflexivity. Qed.

(* into a container: as many whole values as there are, at most count *)
Theorem C87_read_count :
  forall (C : Type) (put : C -> list (option ascii) -> C) size fs n p count (c : C), 0 < size ->
  let rest := skipn p (contents fs n) in
  let k := Nat.min count (length rest / size) in
  exists st', file_read_pod_count put size fs (IFS n p true) count c =
    Ok (count * size <=? length rest, fold_left put (map (map Some) (pieces (repeat size k) rest)) c, st') /\
    (count * size <= length rest -> st' = IFS n (p + count * size) true).
Proof. exact @file_count_ok. Qed.
Print Assumptions C87_read_count.

Example C87_count_example :
  let fs := FSys (fun n => if n =? 0 then Some (str "abcde") else None) (fun _ => true) (fun _ => true) in
  file_read_pod_count (fun c t => c ++ [t]) 2 fs (IFS 0 0 true) 2 [] = Ok (true, [map Some (str "ab"); map Some (str "cd")], IFS 0 4 true).
Proof. reflexivity. Qed.

(* arrays: the bytes are read all right, but true means failure *)
Theorem C87_read_array_refuted :
  forall fs n p t,
  let rest := skipn p (contents fs n) in
  let got := firstn (length t) rest in
  exists b st', file_read_pod_array fs (IFS n p true) t = Ok (b, map Some got ++ skipn (length got) t, st') /\
    (b = true <-> length rest < length t).
Proof.
  intros fs n p t rest got. unfold file_read_pod_array. rewrite ifs_read_ok. cbn zeta. cbn [bind i_ok].
  do 2 eexists. split; [reflexivity|]. fold rest. fold got. unfold got. rewrite firstn_length.
  destruct (Nat.eqb_spec (Nat.min (length t) (length rest)) (length t)); simpl; split; try discriminate; try lia; auto.
Qed.
Print Assumptions C87_read_array_refuted.

Example C87_read_array_refuted_ex : let fs := FSys (fun _ => Some (str "ab")) (fun _ => true) (fun _ => true) in
  (r <- file_read_pod_array fs (IFS 1 0 true) [None; None; None] ;; Ok (fst r)) = Ok (true, [Some "a"%char; Some "b"%char; None]) /\
  (r <- file_read_pod_array fs (IFS 1 0 true) [None; None] ;; Ok (fst r)) = Ok (false, [Some "a"%char; Some "b"%char]).
Proof. split; vm_compute; reflexivity. Qed.

(* writing an array: the bytes arrive, the result is false *)
Theorem C87_write_array_refuted :
  forall fs n t, exists fs', file_write_pod_array fs n t = (false, fs') /\
    f_data fs' n = Some (contents fs n ++ t) /\ forall m, m <> n -> f_data fs' m = f_data fs m.
Proof.
  intros fs n t. eexists. split; [reflexivity|]. unfold append, set_file. cbn [f_data].
  rewrite Nat.eqb_refl. split; auto. intros m Hm. destruct (Nat.eqb_spec m n); [lia|reflexivity].
Qed.
Print Assumptions C87_write_array_refuted.

Example C87_example :
  let fs := FSys (fun n => if n =? 0 then Some (str "abcdefg") else None) (fun _ => true) (fun _ => true) in
  file_read_pod fs (IFS 0 1 true) [[None; None]; [None]; [None; None]] =
    Ok (true, [[Some "b"%char; Some "c"%char]; [Some "d"%char]; [Some "e"%char; Some "f"%char]], IFS 0 6 true) /\
  file_read_pod fs (IFS 0 4 true) [[None; None]; [None; Some "x"%char]; [Some "y"%char]] =
    Ok (false, [[Some "e"%char; Some "f"%char]; [Some "g"%char; Some "x"%char]; [Some "y"%char]], IFS 0 7 false) /\
  file_read_pod_count (fun c t => c ++ [t]) 3 fs (IFS 0 0 true) 5 [] =
    Ok (false, [[Some "a"%char; Some "b"%char; Some "c"%char]; [Some "d"%char; Some "e"%char; Some "f"%char]], IFS 0 7 false).
Proof. repeat split; reflexivity. Qed.

