(* C38: the order of the pairs. *)
From Coq Require Import Permutation.
From Verif Require Import Base Split_Model Split_Spec Num_Model Num_Spec Parse_Model Parse_Spec Parse_Proofs KV_Model KV_Spec KV_Proofs KV_Proofs3 KV_Props.
Local Open Scope nat_scope.

(* no two fields name the same variable *)
Definition named_once (d : ascii) (lookup : list ascii -> option nat) (fs : list (list ascii)) : Prop :=
  forall a b f g k v k' v' i, nth_error fs a = Some f -> nth_error fs b = Some g ->
    kv_field d f k v -> kv_field d g k' v' -> lookup k = Some i -> lookup k' = Some i -> a = b.

(* The same pairs in another order: the same variables, the same number of failures; the
   strict parse succeeds on one text exactly when it does on the other. *)
Theorem C38_order : forall lookup_m lookup bd d s fs s' fs' vars,
  (forall k, lookup_m k = Ok (lookup k)) -> fields_of bd s fs -> fields_of bd s' fs' ->
  Permutation fs fs' -> named_once d lookup fs ->
  (forall n vars', kv_parse_ignore lookup_m bd d s vars = Ok (n, vars') <-> kv_parse_ignore lookup_m bd d s' vars = Ok (n, vars')) /\
  (forall vars', kv_parse lookup_m bd d s vars = Ok (true, vars') <-> kv_parse lookup_m bd d s' vars = Ok (true, vars')).
Proof.
  intros lookup_m lookup bd d s fs s' fs' vars Hl Hf Hf' P Hn. apply apart_pairs in Hn.
  pose proof (pairs_perm _ _ _ _ P Hn) as Hn'.
  assert (E : s = [] <-> s' = []).
  { destruct Hf as (t & Ht & Ef). destruct Hf' as (t' & Ht' & Ef').
    assert (L : length t = length t') by (rewrite <- (map_length (sub s) t), <- Ef, <- (map_length (sub s') t'), <- Ef'; now apply Permutation_length).
    destruct Ht as [[-> ->]|[Hs C]], Ht' as [[-> ->]|[Hs' C']]; try tauto; cbn in L.
    - inversion C'; subst; discriminate.
    - inversion C; subst; discriminate. }
  split; [intros n vars'|intros vars'].
  - rewrite (C38_lenient _ lookup _ _ _ _ _ _ _ Hl Hf), (C38_lenient _ lookup _ _ _ _ _ _ _ Hl Hf'). split.
    + now apply lenient_perm.
    + apply lenient_perm; [now apply Permutation_sym|exact Hn'].
  - rewrite (C38_strict _ lookup _ _ _ _ _ _ _ Hl Hf), (C38_strict _ lookup _ _ _ _ _ _ _ Hl Hf'). split.
    + intros [(_ & ? & _)|[Hs H]]; [discriminate|]. right. split; [tauto|].
      apply lenient_strict. apply (lenient_perm _ _ fs); auto. now apply strict_lenient.
    + intros [(_ & ? & _)|[Hs H]]; [discriminate|]. right. split; [tauto|].
      apply lenient_strict. apply (lenient_perm _ _ fs'); auto; [now apply Permutation_sym|]. now apply strict_lenient.
Qed.
Print Assumptions C38_order.

Example C38_ex_order :
  kv_parse two_keys "|" "=" (str "b=2|a=1") [keep_text; keep_text] = Ok (true, [given keep_text (str "1"); given keep_text (str "2")]) /\
  kv_parse two_keys "|" "=" (str "a=1|b=2") [keep_text; keep_text] = Ok (true, [given keep_text (str "1"); given keep_text (str "2")]).
Proof. split; reflexivity. Qed.

(* a key that occurs twice, or a parse that fails, does depend on the order *)
Theorem C38_order_refuted :
  kv_parse two_keys "|" "=" (str "a=1|a=2") [keep_text; keep_text] = Ok (true, [given keep_text (str "2"); keep_text]) /\
  kv_parse two_keys "|" "=" (str "a=2|a=1") [keep_text; keep_text] = Ok (true, [given keep_text (str "1"); keep_text]) /\
  kv_parse two_keys "|" "=" (str "a=1|c=2") [keep_text; keep_text] = Ok (false, [given keep_text (str "1"); keep_text]) /\
  kv_parse two_keys "|" "=" (str "c=2|a=1") [keep_text; keep_text] = Ok (false, [keep_text; keep_text]).
Proof. repeat split; reflexivity. Qed.
Print Assumptions C38_order_refuted.
