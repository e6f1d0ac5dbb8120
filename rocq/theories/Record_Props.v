(* C135, C136: records of key-value pairs. *)
From Coq Require Import Sorting.Permutation.
From Verif Require Import Base Split_Model Num_Model Num_Spec Num_Proofs Parse_Model Parse_Spec Sink_Model KV_Model KV_Spec KV_Proofs KV_Props Record_Model Record_Spec Record_Proofs.
Local Open Scope nat_scope.

(* ---- C135 ---- *)
Theorem C135_pairs : forall bd d pairs, bd <> d -> pairs <> [] -> well_written bd d pairs ->
  fields_of bd (record_text bd d pairs) (pair_texts d pairs) /\
  Forall2 (fun f p => forall k v, kv_field d f k v <-> (k, v) = p) (pair_texts d pairs) pairs.
Proof.
  intros bd d pairs Hb Hne Hw. split; [now apply record_fields_of|].
  induction Hw as [|p pairs Hp _ IH]; cbn [pair_texts map].
  - constructor.
  - constructor; [|destruct pairs; [constructor|apply IH; discriminate]].
    intros k v. pose proof (pair_field bd d p Hp) as Hf. split.
    + intros H. destruct (kv_field_unique _ _ _ _ _ _ Hf H) as [E1 E2]. destruct p; cbn in *; congruence.
    + intros <-. exact Hf.
Qed.
Print Assumptions C135_pairs.

Example C135_ex_pairs : record_text "|" "=" [(str "a", str "1=2"); ([], str "x"); (str "b", str "3")] = str "a=1=2|=x|b=3" /\
  well_written "|" "=" [(str "a", str "1=2"); ([], str "x"); (str "b", str "3")].
Proof. split; [reflexivity|]. repeat (apply Forall_cons; [cbn; intuition discriminate|]). apply Forall_nil. Qed.

Theorem C135_order : forall lookup_m lookup bd d pairs pairs' vars n vars',
  (forall k, lookup_m k = Ok (lookup k)) -> bd <> d -> well_written bd d pairs -> distinct_variables lookup pairs -> Permutation pairs pairs' ->
  (kv_parse_ignore lookup_m bd d (record_text bd d pairs) vars = Ok (n, vars') ->
   kv_parse_ignore lookup_m bd d (record_text bd d pairs') vars = Ok (n, vars')) /\
  (kv_parse lookup_m bd d (record_text bd d pairs) vars = Ok (true, vars') ->
   kv_parse lookup_m bd d (record_text bd d pairs') vars = Ok (true, vars')).
Proof.
  intros lookup_m lookup bd d pairs pairs' vars n vars' Hl Hb Hw Hd Hp.
  destruct pairs as [|p0 r0].
  { apply Permutation_nil in Hp. subst. auto. }
  set (pairs := p0 :: r0) in *. assert (Hne : pairs <> []) by discriminate. clearbody pairs.
  assert (Hne' : pairs' <> []). { intros ->. apply Permutation_sym, Permutation_nil in Hp. auto. }
  assert (Hw' : well_written bd d pairs').
  { unfold well_written in *. rewrite Forall_forall in *. intros x Hx. apply Hw. eapply Permutation_in; [symmetry; exact Hp|exact Hx]. }
  pose proof (record_fields_of bd d pairs Hne Hw Hb) as F. pose proof (record_fields_of bd d pairs' Hne' Hw' Hb) as F'.
  split; intros H.
  - apply (C38_lenient _ lookup _ _ _ _ _ _ _ Hl F) in H. apply (C38_lenient _ lookup _ _ _ _ _ _ _ Hl F'). eapply lenient_perm; eassumption.
  - apply (C38_strict _ lookup _ _ _ _ _ _ _ Hl F) in H. apply (C38_strict _ lookup _ _ _ _ _ _ _ Hl F'). right. split; [now apply record_nonempty|].
    destruct H as [(_ & H & _)|[_ H]]; [discriminate|]. apply lenient_strict. eapply lenient_perm; [exact Hp|exact Hw|exact Hd|]. now apply strict_lenient.
Qed.
Print Assumptions C135_order.

Definition two_texts : list target := [Target _ conv_string (str "-"); Target _ (conv_signed t_int n_int) 0%Z].
Definition two_names (k : list ascii) : option nat := match k with ["a"%char] => Some 0 | ["b"%char] => Some 1 | _ => None end.
Example C135_ex_order :
  kv_parse_ignore (fun k => Ok (two_names k)) "|" "=" (str "a=x|c=1|b=7") two_texts =
    Ok (1, [Target _ conv_string (str "x"); Target _ (conv_signed t_int n_int) 7%Z]) /\
  kv_parse_ignore (fun k => Ok (two_names k)) "|" "=" (str "b=7|a=x|c=1") two_texts =
    Ok (1, [Target _ conv_string (str "x"); Target _ (conv_signed t_int n_int) 7%Z]).
Proof. split; reflexivity. Qed.

(* a record that fails leaves what came before the failure *)
Theorem C135_failure_order_refuted :
  let pairs := [(str "a", str "x"); (str "c", str "1")] in
  well_written "|" "=" pairs /\ distinct_variables two_names pairs /\
  kv_parse (fun k => Ok (two_names k)) "|" "=" (record_text "|" "=" pairs) two_texts =
    Ok (false, [Target _ conv_string (str "x"); Target _ (conv_signed t_int n_int) 0%Z]) /\
  kv_parse (fun k => Ok (two_names k)) "|" "=" (record_text "|" "=" (rev pairs)) two_texts = Ok (false, two_texts).
Proof.
  split. { repeat (apply Forall_cons; [cbn; intuition discriminate|]). apply Forall_nil. }
  split; [vm_compute; repeat constructor; intros []|]. split; reflexivity.
Qed.
Print Assumptions C135_failure_order_refuted.
(* two pairs for one variable: the last one counts *)
Theorem C135_repeated_key_refuted :
  let pairs := [(str "a", str "x"); (str "a", str "y")] in
  well_written "|" "=" pairs /\
  kv_parse (fun k => Ok (two_names k)) "|" "=" (record_text "|" "=" pairs) two_texts =
    Ok (true, [Target _ conv_string (str "y"); Target _ (conv_signed t_int n_int) 0%Z]) /\
  kv_parse (fun k => Ok (two_names k)) "|" "=" (record_text "|" "=" (rev pairs)) two_texts =
    Ok (true, [Target _ conv_string (str "x"); Target _ (conv_signed t_int n_int) 0%Z]).
Proof.
  split. { repeat (apply Forall_cons; [cbn; intuition discriminate|]). apply Forall_nil. }
  split; reflexivity.
Qed.
Print Assumptions C135_repeated_key_refuted.

(* ---- C136 ---- *)
Theorem C136_one_record : forall T (conv_real : converter T) nought cd pairs pairs' old,
  record_fields (fun x v => forall u, conv_real x u = Ok (true, v)) cd pairs -> Permutation pairs pairs' ->
  kv_parse (uintkey_lookup key_table) "|" "=" (record_text "|" "=" pairs') (members conv_real nought old) =
    Ok (true, members conv_real nought (CD (v0 cd) (v1 cd) (v2 cd) (v3 old ++ v3 cd) (v4 old ++ v4 cd) (v5 old ++ v5 cd))).
Proof. intros T conv_real nought cd pairs pairs' old. apply record_read. Qed.
Print Assumptions C136_one_record.

Definition six : list (list ascii * list ascii) :=
  [(str "00", str "123456"); (str "01", str "1234567.1"); (str "02", str "Simple text"); (str "03", str "-3,0,3"); (str "04", str "1.1,2.2"); (str "05", str "Text1,Text2")].
Definition six_values : complex_data (list ascii) :=
  CD 123456 (str "1234567.1") (str "Simple text") [-3; 0; 3]%Z [str "1.1"; str "2.2"] [str "Text1"; str "Text2"].
(* the texts of the reals stand for the reals here *)
Example C136_ex_written : record_fields (fun x v => forall u, conv_string x u = Ok (true, v)) six_values six.
Proof.
  exists (str "00"), (str "01"), (str "02"), (str "03"), (str "04"), (str "05").
  exists (str "123456"), (str "1234567.1"), (str "-3,0,3"), (str "1.1,2.2"), (str "Text1,Text2").
  split; [reflexivity|].
  do 6 (split; [split; [apply digb_all; reflexivity|split; [cbn; lia|reflexivity]]|]).
  split. { split; [|cbn; lia]. exists [], (str "123456"). split; [reflexivity|]. split; [split; [discriminate|apply digb_all; reflexivity]|]. left. auto. }
  split; [reflexivity|].
  split. { exists [str "-3"; str "0"; str "3"]. split; [discriminate|]. split; [repeat (apply Forall_cons; [cbn; intuition discriminate|]); apply Forall_nil|].
    split; [reflexivity|]. constructor; [|constructor; [|constructor; [|constructor]]]; (split; [|lia]).
    - exists ["-"%char], (str "3"). split; [reflexivity|]. split; [split; [discriminate|apply digb_all; reflexivity]|]. right. auto.
    - exists [], (str "0"). split; [reflexivity|]. split; [split; [discriminate|apply digb_all; reflexivity]|]. left. auto.
    - exists [], (str "3"). split; [reflexivity|]. split; [split; [discriminate|apply digb_all; reflexivity]|]. left. auto. }
  split. { exists [str "1.1"; str "2.2"]. split; [discriminate|]. split; [repeat (apply Forall_cons; [cbn; intuition discriminate|]); apply Forall_nil|].
    split; [reflexivity|]. repeat constructor. }
  split. { exists [str "Text1"; str "Text2"]. split; [discriminate|]. split; [repeat (apply Forall_cons; [cbn; intuition discriminate|]); apply Forall_nil|].
    split; [reflexivity|]. repeat constructor. }
  repeat (apply Forall_cons; [cbn; intuition discriminate|]). apply Forall_nil.
Qed.
Example C136_ex_one : record_text "|" "=" (rev six) = str "05=Text1,Text2|04=1.1,2.2|03=-3,0,3|02=Simple text|01=1234567.1|00=123456" /\
  kv_parse (uintkey_lookup key_table) "|" "=" (record_text "|" "=" (rev six)) (members conv_string [] (CD 0%Z [] [] [9%Z] [] [])) =
    Ok (true, members conv_string [] (CD 123456%Z (str "1234567.1") (str "Simple text") [9; -3; 0; 3]%Z [str "1.1"; str "2.2"] [str "Text1"; str "Text2"])).
Proof. split; reflexivity. Qed.

Theorem C136_records : forall T (conv_real : converter T) nought cds texts start,
  v3 start = [] -> v4 start = [] -> v5 start = [] ->
  Forall2 (fun cd s => exists pairs pairs', record_fields (fun x v => forall u, conv_real x u = Ok (true, v)) cd pairs /\
    Permutation pairs pairs' /\ s = record_text "|" "=" pairs') cds texts ->
  read_records conv_real nought texts (members conv_real nought start) = Ok (map (fun cd => Some (members conv_real nought cd)) cds).
Proof. intros T conv_real nought cds texts start. apply records_read. Qed.
Print Assumptions C136_records.

Example C136_ex_records : read_records conv_string [] [record_text "|" "=" six; record_text "|" "=" (rev six)] (members conv_string [] (CD 0%Z [] [] [] [] [])) =
  Ok [Some (members conv_string [] six_values); Some (members conv_string [] six_values)].
Proof. reflexivity. Qed.

(* the lists are cleared only after a success: what a refused record left is shown with the next one *)
Theorem C136_leftover_refuted :
  read_records conv_string [] [str "03=7,8|06=x"; record_text "|" "=" six] (members conv_string [] (CD 0%Z [] [] [] [] [])) =
    Ok [None; Some (members conv_string [] (CD 123456%Z (str "1234567.1") (str "Simple text") [7; 8; -3; 0; 3]%Z [str "1.1"; str "2.2"] [str "Text1"; str "Text2"]))].
Proof. reflexivity. Qed.
Print Assumptions C136_leftover_refuted.
(* the numbers and the text of a record without all keys are those of the record before *)
Theorem C136_missing_key_refuted :
  read_records conv_string [] [record_text "|" "=" six; str "03=1"] (members conv_string [] (CD 0%Z [] [] [] [] [])) =
    Ok [Some (members conv_string [] six_values); Some (members conv_string [] (CD 123456%Z (str "1234567.1") (str "Simple text") [1%Z] [] []))].
Proof. reflexivity. Qed.
Print Assumptions C136_missing_key_refuted.
