(* C38, C58, C59: key-value parsing, column selection, util::value. *)
From Verif Require Import Base Split_Model Split_Spec Num_Model Num_Spec Num_Proofs Parse_Model Parse_Spec Parse_Proofs KV_Model KV_Spec KV_Proofs KV_Proofs2 Num_Props.
Local Open Scope nat_scope.

(* for the examples: a string variable that holds the text old, and two keys *)
Definition keep_text : target := Target (list ascii) (fun x _ => Ok (true, x)) (str "old").
Definition two_keys (k : list ascii) : outcome (option nat) := stringkey_lookup (map_registered string_eqb [(str "a", 0); (str "b", 1)]) k.

(* ------------------------------------------------------------------ *)
(* C38.  [lookup] says which variable a key text stands for. *)
Theorem C38_fields : forall d s, exists! fs, fields_of d s fs.
Proof.
  intros d s. destruct (fields_exist d s) as (fs & H). exists fs. split; [exact H|]. intros fs' H'. eapply fields_unique; eauto.
Qed.
Print Assumptions C38_fields.

Example C38_ex_fields : kv_field "=" (str "a=1=2") (str "a") (str "1=2") /\ forall k, ~ kv_field "=" (str "a=") k [].
Proof.
  split; [|intros k (_ & _ & H); now apply H]. split; [reflexivity|]. split; [cbn; intuition discriminate|discriminate].
Qed.

Theorem C38_strict : forall lookup_m lookup bd d s fs vars b vars',
  (forall k, lookup_m k = Ok (lookup k)) -> fields_of bd s fs ->
  (kv_parse lookup_m bd d s vars = Ok (b, vars') <->
   (s = [] /\ b = false /\ vars' = vars) \/ (s <> [] /\ strict_result d lookup fs vars b vars')).
Proof. intros lookup_m lookup bd d s fs vars b vars' H. exact (kv_parse_iff lookup_m lookup H bd d s fs vars b vars'). Qed.
Print Assumptions C38_strict.

Example C38_ex_strict :
  kv_parse two_keys "|" "=" (str "b=2||a=1") [keep_text; keep_text] = Ok (true, [given keep_text (str "1"); given keep_text (str "2")]) /\
  kv_parse two_keys "|" "=" (str "b=2|c=3|a=1") [keep_text; keep_text] = Ok (false, [keep_text; given keep_text (str "2")]).
Proof. split; reflexivity. Qed.

Theorem C38_lenient : forall lookup_m lookup bd d s fs vars n vars',
  (forall k, lookup_m k = Ok (lookup k)) -> fields_of bd s fs ->
  (kv_parse_ignore lookup_m bd d s vars = Ok (n, vars') <-> lenient_result d lookup fs vars n vars').
Proof. intros lookup_m lookup bd d s fs vars n vars' H. exact (kv_parse_ignore_iff lookup_m lookup H bd d s fs vars n vars'). Qed.
Print Assumptions C38_lenient.

Example C38_ex_lenient :
  kv_parse_ignore two_keys "|" "=" (str "b=2|c=3|x|a=1") [keep_text; keep_text] = Ok (2, [given keep_text (str "1"); given keep_text (str "2")]).
Proof. reflexivity. Qed.

(* variables that no field names keep their value *)
Theorem C38_frame : forall lookup_m lookup bd d s fs vars i,
  (forall k, lookup_m k = Ok (lookup k)) -> fields_of bd s fs ->
  (forall f k v, In f fs -> kv_field d f k v -> lookup k <> Some i) ->
  (forall b vars', kv_parse lookup_m bd d s vars = Ok (b, vars') -> nth_error vars' i = nth_error vars i) /\
  (forall n vars', kv_parse_ignore lookup_m bd d s vars = Ok (n, vars') -> nth_error vars' i = nth_error vars i).
Proof.
  intros lookup_m lookup bd d s fs vars i Hl Hf Hm.
  assert (M : forall f, In f fs -> ~ mentions lookup d f i) by (intros f Hin (k & v & Hk & Hv); eapply Hm; eauto).
  split; intros b vars' E.
  - apply (C38_strict _ lookup _ _ _ fs) in E; auto. destruct E as [(_ & _ & ->)|[_ E]]; auto. eapply strict_frame; eauto.
  - apply (C38_lenient _ lookup _ _ _ fs) in E; auto. eapply lenient_frame; eauto.
Qed.
Print Assumptions C38_frame.

Example C38_ex_frame :
  kv_parse_ignore two_keys "|" "=" (str "b=2|a") [keep_text; keep_text; keep_text] = Ok (1, [keep_text; given keep_text (str "2"); keep_text]).
Proof. reflexivity. Qed.

(* the last field that names a variable decides its value, whether failures are ignored
   or the strict parse succeeded *)
Theorem C38_last : forall lookup_m lookup bd d s pre f post vars vars' i k v t,
  (forall k, lookup_m k = Ok (lookup k)) -> fields_of bd s (pre ++ f :: post) ->
  kv_field d f k v -> lookup k = Some i ->
  (forall g k' v', In g post -> kv_field d g k' v' -> lookup k' <> Some i) ->
  nth_error vars i = Some t ->
  (kv_parse lookup_m bd d s vars = Ok (true, vars') \/ (exists n, kv_parse_ignore lookup_m bd d s vars = Ok (n, vars'))) ->
  exists b old x, t_conv t v old = Ok (b, x) /\ nth_error vars' i = Some (given t x).
Proof.
  intros lookup_m lookup bd d s pre f post vars vars' i k v t Hl Hf Hk Hi Hpost Ht E.
  assert (H : exists n, lenient_result d lookup (pre ++ f :: post) vars n vars').
  { destruct E as [E|(n & E)].
    - apply (C38_strict _ lookup _ _ _ _ _ _ _ Hl Hf) in E. destruct E as [(_ & E & _)|[_ E]]; [discriminate|].
      apply strict_lenient in E. eauto.
    - apply (C38_lenient _ lookup _ _ _ _ _ _ _ Hl Hf) in E. eauto. }
  destruct H as (n & H). eapply lenient_last; eauto.
  intros g Hg (k' & v' & H1 & H2). eapply Hpost; eauto.
Qed.
Print Assumptions C38_last.

Example C38_ex_last :
  kv_parse two_keys "|" "=" (str "a=1|b=2|a=3") [keep_text; keep_text] = Ok (true, [given keep_text (str "3"); given keep_text (str "2")]).
Proof. reflexivity. Qed.

(* uintkey_map: keys below key_count, written with at most 19 digits *)
Theorem C38_uint_keys : forall count regs k,
  (exists o, uintkey_lookup (uint_registered count regs) k = Ok o) /\
  forall i, uintkey_lookup (uint_registered count regs) k = Ok (Some i) <->
            exists n, uint_key_text k n /\ n < count /\ last_registered Nat.eqb regs n = Some i.
Proof.
  intros count regs k. split; [apply uintkey_total|]. intros i. rewrite uintkey_iff.
  destruct (uint_registered_ok count regs) as [Hl Hn]. split.
  - intros (n & Hk & E). pose proof (nth_error_some_lt _ _ _ E) as L. rewrite Hl in L. exists n. split; [auto|]. split; [auto|].
    rewrite Hn in E by auto. congruence.
  - intros (n & Hk & L & E). exists n. split; [auto|]. rewrite Hn by auto. congruence.
Qed.
Print Assumptions C38_uint_keys.

Example C38_ex_uint_keys : uintkey_lookup (uint_registered 5 [(3, 0); (4, 1); (3, 2)]) (str "003") = Ok (Some 2) /\
  uintkey_lookup (uint_registered 5 [(3, 0); (4, 1); (3, 2)]) (str "2") = Ok None.
Proof. split; reflexivity. Qed.

(* stringkey_map: the key text itself *)
Theorem C38_string_keys : forall regs k,
  stringkey_lookup (map_registered string_eqb regs) k = Ok (last_registered string_eqb regs k).
Proof. intros regs k. unfold stringkey_lookup. now rewrite (map_registered_ok string_eqb string_eqb_iff). Qed.
Print Assumptions C38_string_keys.

Example C38_ex_string_keys : two_keys (str "b") = Ok (Some 1) /\ two_keys (str "B") = Ok None /\
  stringkey_lookup (map_registered string_eqb [(str "b", 0); (str "b", 1)]) (str "b") = Ok (Some 1).
Proof. repeat split; reflexivity. Qed.

(* key_map<unsigned int>: at most 19 digits are the number modulo 2^32, everything else is 2^32 - 1 *)
Theorem C38_uint_map : forall regs k,
  (Forall is_digit k /\ length k <= 19 ->
   uintmap_lookup (map_registered Z.eqb regs) k = Ok (last_registered Z.eqb regs (dec_value k mod 2 ^ 32)%Z)) /\
  (~ (Forall is_digit k /\ length k <= 19) ->
   uintmap_lookup (map_registered Z.eqb regs) k = Ok (last_registered Z.eqb regs (2 ^ 32 - 1)%Z)).
Proof.
  assert (uint_type : unsigned_type t_uint 32) by (repeat split; lia).
  intros regs k. unfold uintmap_lookup, keygen_uint. destruct (C21_checked t_uint 32 k uint_type) as [(o & E) H].
  rewrite E in *. cbn [bind]. rewrite (map_registered_ok Z.eqb Z.eqb_eq). split; intros Hk.
  - assert (Ok o = Ok (Some (dec_value k mod 2 ^ 32)%Z)) as Ho; [|injection Ho as ->; reflexivity].
    apply H. destruct Hk. auto.
  - destruct o as [v|]; [|reflexivity]. exfalso. apply Hk. destruct (proj1 (H v) eq_refl) as (Hd & Hl & _). auto.
Qed.
Print Assumptions C38_uint_map.

Example C38_ex_uint_map :
  uintmap_lookup (map_registered Z.eqb [(3%Z, 0); (12%Z, 1); (3%Z, 2)]) (str "003") = Ok (Some 2) /\
  uintmap_lookup (map_registered Z.eqb [(3%Z, 0); (12%Z, 1); (3%Z, 2)]) (str "12") = Ok (Some 1) /\
  uintmap_lookup (map_registered Z.eqb [(3%Z, 0); (12%Z, 1); (3%Z, 2)]) (str "4") = Ok None.
Proof. repeat split; reflexivity. Qed.

(* key_map<unsigned int>: a number that does not fit aliases another key, and a text
   that is no number stands for 4294967295; an empty key is key 0 *)
Theorem C38_uint_map_refuted :
  uintmap_lookup (map_registered Z.eqb [(0%Z, 7)]) (str "4294967296") = Ok (Some 7) /\
  uintmap_lookup (map_registered Z.eqb [(4294967295%Z, 7)]) (str "abc") = Ok (Some 7) /\
  uintmap_lookup (map_registered Z.eqb [(0%Z, 7)]) [] = Ok (Some 7).
Proof. repeat split. Qed.
Print Assumptions C38_uint_map_refuted.

(* an empty value makes the pair malformed, so a string variable cannot be set to the
   empty text: the strict parse stops there *)
Theorem C38_empty_value_refuted :
  kv_parse (stringkey_lookup (map_registered string_eqb [(str "a", 0); (str "b", 1)])) "|" "="
    (str "a=|b=x") [keep_text; keep_text] = Ok (false, [keep_text; keep_text]).
Proof. reflexivity. Qed.
Print Assumptions C38_empty_value_refuted.

Example C38_ex : exists n v1 v2,
  kv_parse_ignore (stringkey_lookup (map_registered string_eqb [(str "a", 0); (str "b", 1)])) "|" "="
    (str "a=1||b=2|zz=3|a=4=5") [keep_text; keep_text] = Ok (n, [v1; v2]) /\
  n = 1 /\ v1 = given keep_text (str "4=5") /\ v2 = given keep_text (str "2").
Proof. eexists _, _, _. split; [reflexivity|]. auto. Qed.
Example C38_ex_uint : uintkey_lookup (uint_registered 5 [(3, 0); (4, 1); (3, 2)]) (str "003") = Ok (Some 2) /\
  uintkey_lookup (uint_registered 5 [(3, 0); (4, 1); (3, 2)]) (str "5") = Ok None /\
  uintkey_lookup (uint_registered 5 [(3, 0)]) (str "3 ") = Ok None.
Proof. repeat split. Qed.

(* ------------------------------------------------------------------ *)
(* C58 *)
Theorem C58_columns : forall delims s cols texts xs ts b ts',
  ascending cols -> cols <> [] -> length ts = length cols ->
  compressed_tokens delims s texts -> columns_of texts cols xs ->
  (parse_columns delims s cols ts = Ok (b, ts') <->
   (length texts <= last cols 0 /\ b = false /\ ts' = ts) \/ (last cols 0 < length texts /\ results ts xs b ts')).
Proof. exact parse_columns_iff. Qed.
Print Assumptions C58_columns.

Example C58_ex_columns :
  parse_columns (str ",") (str "a,b,,c,d") [1; 2] [keep_text; keep_text] = Ok (true, [given keep_text (str "b"); given keep_text (str "c")]).
Proof. reflexivity. Qed.

Theorem C58_short : forall delims s cols texts ts, ascending cols -> cols <> [] ->
  compressed_tokens delims s texts -> length texts <= last cols 0 -> parse_columns delims s cols ts = Ok (false, ts).
Proof.
  intros delims s cols texts ts Ha Hne Ht Hl. pose proof (parse_columns_tokens_ok _ _ _ _ Ha Hne Ht) as H.
  rewrite (proj2 (Nat.leb_le _ _) Hl) in H. unfold parse_columns. now rewrite H.
Qed.
Print Assumptions C58_short.

Example C58_ex_short : parse_columns (str ",") (str "a,,b") [0; 2] [keep_text; keep_text] = Ok (false, [keep_text; keep_text]).
Proof. reflexivity. Qed.

Theorem C58_sequence : forall T (conv : converter T) delims s cols texts xs sq b sq',
  ascending cols -> cols <> [] -> length cols <= length sq ->
  compressed_tokens delims s texts -> columns_of texts cols xs ->
  (parse_columns_seq conv delims s cols sq = Ok (b, sq') <->
   (length texts <= last cols 0 /\ b = false /\ sq' = sq) \/ (last cols 0 < length texts /\ seq_results conv xs sq b sq')).
Proof. intros T. exact (@parse_columns_seq_iff T). Qed.
Print Assumptions C58_sequence.

Example C58_ex_sequence :
  parse_columns_seq (fun x (_ : list ascii) => Ok (negb (length x =? 2), x)) (str ",;") (str "a;b,cc,d") [0; 2; 3] [[]; []; []; str "x"] =
  Ok (false, [str "a"; str "cc"; []; str "x"]).
Proof. reflexivity. Qed.

Theorem C58_selector : forall cols ts xs, ascending cols -> length ts = length cols ->
  (forall st, csel_run cols xs (csel_init cols ts) = Ok st ->
     (forall j c t, nth_error cols j = Some c -> nth_error ts j = Some t ->
        match nth_error xs c with
        | Some x => exists b v, t_conv t x (t_val t) = Ok (b, v) /\ nth_error (sel_values st) j = Some (given t v, b)
        | None => nth_error (sel_values st) j = Some (t, false)
        end) /\
     length (sel_values st) = length cols /\
     sel_errors st = length (filter (fun p => (fst p <? length xs) && negb (snd (snd p))) (combine cols (sel_values st)))) /\
  ((forall j c t y, nth_error cols j = Some c -> nth_error ts j = Some t -> nth_error xs c = Some y -> exists b v, t_conv t y (t_val t) = Ok (b, v)) ->
     exists st, csel_run cols xs (csel_init cols ts) = Ok st).
Proof.
  intros cols ts xs Ha Hl. destruct (csel_run_ok cols ts Ha Hl xs) as [H1 H2]. split; [|exact H2].
  intros st E. destruct (H1 st E) as (_ & _ & H & _ & H5 & H6). auto.
Qed.
Print Assumptions C58_selector.
Definition c58_run (xs : list (list ascii)) (st : csel) : csel :=
  match csel_run [0; 2] xs st with Ok st => st | _ => st end.
Example C58_ex_selector : let st := c58_run [str "a"; str "b"; str "c"] (csel_init [0; 2] [keep_text; keep_text]) in
  sel_values st = [(given keep_text (str "a"), true); (given keep_text (str "c"), true)] /\ sel_errors st = 0.
Proof. split; reflexivity. Qed.

(* the next row, after reset(): as for a new selector, except that the columns the row does
   not reach keep both their value and their flag from the row before *)
Theorem C58_reset : forall cols st xs, ascending cols -> length (sel_values st) = length cols ->
  (forall st', csel_run cols xs (csel_reset cols st) = Ok st' ->
     (forall j c t f, nth_error cols j = Some c -> nth_error (sel_values st) j = Some (t, f) ->
        match nth_error xs c with
        | Some x => exists b v, t_conv t x (t_val t) = Ok (b, v) /\ nth_error (sel_values st') j = Some (given t v, b)
        | None => nth_error (sel_values st') j = Some (t, f)
        end) /\
     length (sel_values st') = length cols /\
     sel_errors st' = length (filter (fun p => (fst p <? length xs) && negb (snd (snd p))) (combine cols (sel_values st')))) /\
  ((forall j c t f y, nth_error cols j = Some c -> nth_error (sel_values st) j = Some (t, f) -> nth_error xs c = Some y -> exists b v, t_conv t y (t_val t) = Ok (b, v)) ->
     exists st', csel_run cols xs (csel_reset cols st) = Ok st').
Proof. intros cols st xs. exact (csel_reset_ok cols xs st). Qed.
Print Assumptions C58_reset.
Example C58_ex_reset :
  let st := c58_run [str "a"; str "b"; str "c"] (csel_init [0; 2] [keep_text; keep_text]) in
  let st := c58_run [str "x"; str "y"] (csel_reset [0; 2] st) in
  sel_values st = [(given keep_text (str "x"), true); (given keep_text (str "c"), true)] /\ sel_errors st = 0.
Proof. split; reflexivity. Qed.

(* out of order columns: success is reported, but both targets get an empty text *)
Theorem C58_order_refuted :
  parse_columns (str ",") (str "a,b,c") [1; 0] [keep_text; keep_text] =
  Ok (true, [given keep_text []; given keep_text []]).
Proof. reflexivity. Qed.
Print Assumptions C58_order_refuted.

(* a sequence with fewer elements than columns is overrun *)
Theorem C58_small_sequence_refuted : parse_columns_seq (fun x (_ : list ascii) => Ok (true, x)) (str ",") (str "a,b,c") [0; 2] [[]] = UB.
Proof. reflexivity. Qed.
Print Assumptions C58_small_sequence_refuted.

Example C58_ex : exists v1 v2, parse_columns (str ",") (str "a,b,,c,d") [1; 2] [keep_text; keep_text] = Ok (true, [v1; v2]) /\
  v1 = given keep_text (str "b") /\ v2 = given keep_text (str "c").
Proof. eexists _, _. split; [reflexivity|]. split; reflexivity. Qed.
Example C58_ex_ascending : ascending [0; 3; 7] /\ ~ ascending [3; 0].
Proof. cbn. lia. Qed.

(* ------------------------------------------------------------------ *)
(* C59.  Programs that create, bind, assign and destroy util::value objects. *)
Theorem C59_bindings : forall n os bs, vsteps (repeat None n) os bs ->
  exists w, run_vops (repeat None n) os = Ok w /\
    forall a vars x,
      (nth_error bs a = Some (Some None) -> v_call w a vars x = Ok (false, vars)) /\
      (forall i t b v, nth_error bs a = Some (Some (Some i)) -> nth_error vars i = Some t ->
         t_conv t x (t_val t) = Ok (b, v) -> v_call w a vars x = Ok (b, upd vars i (given t v))).
Proof.
  intros n os bs H. destruct (run_vops_ok os _ _ _ (represents_none n) H) as (w & E & R).
  exists w. split; [exact E|]. intros a vars x. exact (v_call_ok w bs a vars x R).
Qed.
Print Assumptions C59_bindings.

Example C59_ex_call : let vars := [keep_text; keep_text] in
  (w <- run_vops (repeat None 2) [VNew 1; VBind 0 1; VAssign 1 0; VEnd 0] ;; v_call w 1 vars (str "x")) = Ok (true, [keep_text; given keep_text (str "x")]) /\
  (w <- run_vops (repeat None 2) [VNew 1] ;; v_call w 1 vars (str "x")) = Ok (false, vars).
Proof. split; reflexivity. Qed.

(* the implicit copy constructor: the copy follows the original *)
Theorem C59_copy_refuted :
  (w <- v_assign [None; None] 0 0 ;; w <- v_copy w 0 1 ;; w <- v_destroy w 0 ;;
   v_call w 1 [keep_text] (str "x")) = UB /\
  (w <- v_assign [None; None] 0 0 ;; w <- v_copy w 0 1 ;; w <- v_assign w 0 1 ;;
   v_call w 1 [keep_text; keep_text] (str "x")) = Ok (true, [keep_text; given keep_text (str "x")]).
Proof. split; reflexivity. Qed.
Print Assumptions C59_copy_refuted.

(* assigning an empty value does not clear *)
Theorem C59_assign_empty_refuted :
  (w <- v_assign [None; None] 0 0 ;; w <- v_new w 1 ;; w <- v_set w 0 1 ;;
   v_call w 0 [keep_text] (str "x")) = Ok (true, [given keep_text (str "x")]).
Proof. reflexivity. Qed.
Print Assumptions C59_assign_empty_refuted.

Example C59_ex : vsteps (repeat None 2) [VNew 1; VBind 0 5; VAssign 1 0; VEnd 0] [None; Some (Some 5)].
Proof.
  eapply vss_cons; [apply vs_new; cbn; lia|]. eapply vss_cons; [apply vs_bind; cbn; lia|].
  eapply vss_cons; [eapply vs_assign; reflexivity|]. eapply vss_cons; [apply vs_end; cbn; lia|]. apply vss_nil.
Qed.
