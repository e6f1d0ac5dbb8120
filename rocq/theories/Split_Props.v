(* Properties C01-C05: splitting and tokenising. *)
From Verif Require Import Base Split_Model Split_Spec Split_Proofs Split_Proofs2 Split_Proofs3.

(* C01: default split = all delimiter-free fields, nothing lost. *)
Theorem C01_split_default :
  forall (A : Type) (p : A -> bool) (s : list A),
  exists toks, split p s 0 = Ok (toks, length toks) /\
    tokens_of p s (fun f e => f) (fun f e => S f) toks /\
    Forall (fun r => fst r <= snd r /\ snd r <= length s) toks /\
    Forall (fun r => Forall (fun x => p x = false) (sub s r)) toks /\
    (s = [] -> toks = []) /\
    (s <> [] -> length toks = S (count_delims p s) /\
       weave (map (sub s) toks) (map (fun d => [d]) (filter p s)) = s).
Proof. exact (@split_default_fields). Qed.
Print Assumptions C01_split_default.

Example C01_ex_default : split (fun x => x =? 0) [0; 7; 0; 0; 8; 9] 0 = Ok ([(0,0); (1,2); (3,3); (4,6)], 4) /\
  weave (map (sub [0; 7; 0; 0; 8; 9]) [(0,0); (1,2); (3,3); (4,6)]) [[0]; [0]; [0]] = [0; 7; 0; 0; 8; 9] /\
  split (fun x => x =? 0) [] 0 = Ok ([], 0).
Proof. vm_compute. auto. Qed.

(* C01 for the string overload: the delimiters are exactly the given characters,
   however many they are. *)
Theorem C01_split_string_delimiters :
  forall (delims s : list ascii) (opt : N),
  split_str delims s opt = split (fun c => existsb (fun d => Ascii.eqb d c) delims) s opt.
Proof. exact split_str_delims. Qed.
Print Assumptions C01_split_string_delimiters.

Example C01_ex_delimiters : split_str (str ",;:") (str "a;b:c") 0 = Ok ([(0,1); (2,3); (4,5)], 3) /\ split_str [] (str "a;b:c") 0 = Ok ([(0,5)], 1).
Proof. vm_compute. auto. Qed.

(* The specification determines the token list: at most one list satisfies it. *)
Theorem C01_spec_unique :
  forall (A : Type) (p : A -> bool) (s : list A) te nx a t1,
  cuts p s te nx a t1 -> forall t2, cuts p s te nx a t2 -> t1 = t2.
Proof. exact (@cuts_unique). Qed.
Print Assumptions C01_spec_unique.

Example C01_example :
  split (single_delimiter_predicate ","%char) (str ",a,,bc,") 0
  = Ok ([(0,0); (1,2); (3,3); (4,6); (7,7)], 5).
Proof. reflexivity. Qed.

(* C02: with compress_delimiters each maximal run is one separator. *)
Theorem C02_split_compress :
  forall (A : Type) (p : A -> bool) (s : list A),
  exists toks, split p s 1 = Ok (toks, length toks) /\
    tokens_of p s (fun f e => f) (fun f e => e) toks /\
    Forall (fun r => fst r <= snd r /\ snd r <= length s) toks /\
    Forall (fun r => Forall (fun x => p x = false) (sub s r)) toks /\
    (s = [] -> toks = []) /\
    (s <> [] ->
       (exists runs, length toks = S (length runs) /\
          Forall (fun d => d <> [] /\ Forall (fun x => p x = true) d) runs /\
          weave (map (sub s) toks) runs = s) /\
       (forall i, 0 < i -> S i < length toks ->
          exists r, nth_error toks i = Some r /\ sub s r <> [])).
Proof. exact (@split_compress_fields). Qed.
Print Assumptions C02_split_compress.

Example C02_example :
  split (single_delimiter_predicate ","%char) (str ",,a,,,bc,,") 1
  = Ok ([(0,0); (2,3); (6,8); (10,10)], 4).
Proof. reflexivity. Qed.

(* C03: the including modes that do not skip lose nothing. *)
Theorem C03_split_include_lossless :
  forall (A : Type) (p : A -> bool) (s : list A) (opt : N),
  (has_bit opt 1 = true /\ has_bit opt 0 = false) \/
  (has_bit opt 1 = false /\ has_bit opt 2 = true) ->
  exists toks, split p s opt = Ok (toks, length toks) /\
    concat (map (sub s) toks) = s /\
    (forall i r, nth_error toks i = Some r ->
      exists fld del, sub s r = fld ++ del /\
        Forall (fun x => p x = false) fld /\ Forall (fun x => p x = true) del /\
        (S i < length toks -> del <> []) /\
        (S i = length toks -> del = []) /\
        (has_bit opt 1 = true -> length del <= 1)).
Proof. exact (@split_include_lossless). Qed.
Print Assumptions C03_split_include_lossless.

Example C03_example :
  has_bit 4 1 = false /\ has_bit 4 2 = true /\
  split (single_delimiter_predicate ","%char) (str "a,,b,") 4
  = Ok ([(0,3); (3,5); (5,5)], 3) /\
  has_bit 2 1 = true /\ has_bit 2 0 = false /\
  split (single_delimiter_predicate ","%char) (str "a,,b,") 2
  = Ok ([(0,2); (2,3); (3,5); (5,5)], 4).
Proof. repeat split. Qed.

(* C03, the combination include_1st + compress drops delimiters, so losslessness
   does not extend to it. *)
Theorem C03_include_1st_compress_refuted :
  exists (p : ascii -> bool) (s : list ascii) toks,
    split p s 3 = Ok (toks, length toks) /\ concat (map (sub s) toks) <> s.
Proof.
  exists (single_delimiter_predicate ","%char), (str "a,,b"), [(0,2); (3,4)].
  split; [reflexivity|]. intros H. discriminate H.
Qed.
Print Assumptions C03_include_1st_compress_refuted.

(* C04: the tokenizer enumerates exactly the tokens of split, for every option
   set except compress + include_1st + include_all together. *)
Theorem C04_tokenizer_is_split :
  forall (A : Type) (p : A -> bool) (s : list A) (opt : N),
  has_bit opt 0 && has_bit opt 1 && has_bit opt 2 = false ->
  exists toks, tokenize p s opt = Ok toks /\ split p s opt = Ok (toks, length toks).
Proof. exact (@tokenize_split). Qed.
Print Assumptions C04_tokenizer_is_split.

Example C04_example :
  tokenize (single_delimiter_predicate ","%char) (str ",,a,,bc,,") 5
  = Ok [(0,2); (2,5); (5,9); (9,9)].
Proof. reflexivity. Qed.

Theorem C04_all_options_refuted :
  exists (p : ascii -> bool) (s : list ascii) t1 t2,
    tokenize p s 7 = Ok t1 /\ split p s 7 = Ok (t2, length t2) /\ t1 <> t2.
Proof.
  exists (single_delimiter_predicate ","%char), (str "a,,b"), [(0,2); (2,3); (3,4)], [(0,2); (3,4)].
  repeat split. discriminate.
Qed.
Print Assumptions C04_all_options_refuted.

(* C05: split_n = the first n tokens of split, unless include_all is selected
   without include_1st. *)
Theorem C05_split_n_prefix :
  forall (A : Type) (p : A -> bool) (s : list A) (opt : N),
  (has_bit opt 2 = true -> has_bit opt 1 = true) ->
  forall n, exists toks, split p s opt = Ok (toks, length toks) /\
    split_n p s n opt = Ok (firstn n toks, Nat.min n (length toks)).
Proof. exact (@split_n_firstn). Qed.
Print Assumptions C05_split_n_prefix.

Example C05_example :
  (has_bit 1 2 = true -> has_bit 1 1 = true) /\
  split_n (single_delimiter_predicate ","%char) (str "a,,b,c") 2 1 = Ok ([(0,1); (3,4)], 2).
Proof. split; [discriminate|reflexivity]. Qed.

Theorem C05_include_all_refuted :
  exists (p : ascii -> bool) (s : list ascii) n toks,
    split p s 4 = Ok (toks, length toks) /\
    split_n p s n 4 <> Ok (firstn n toks, Nat.min n (length toks)).
Proof.
  exists (single_delimiter_predicate ","%char), (str "a,,b"), 2, [(0,3); (3,4)].
  split; [reflexivity|]. intros H. discriminate H.
Qed.
Print Assumptions C05_include_all_refuted.

(* multiple_delimiter_predicate takes exactly the given characters for delimiters, in any order and
   with any repetition: split by it is split with the string of delimiters *)
Theorem C01_multiple_delimiters : forall (delims s : list ascii) (opt : N),
  (forall c, multiple_delimiter_predicate delims c = true <-> In c delims) /\
  split (multiple_delimiter_predicate delims) s opt = split_str delims s opt.
Proof.
  intros delims s opt. split; [|now rewrite C01_split_string_delimiters].
  intros c. unfold multiple_delimiter_predicate. rewrite existsb_exists. split.
  - intros (d & H & E). apply Ascii.eqb_eq in E. now subst.
  - intros H. exists c. split; [auto|apply Ascii.eqb_refl].
Qed.
Print Assumptions C01_multiple_delimiters.
Example C01_multiple_delimiters_example : split (multiple_delimiter_predicate (str ";,;")) (str "a,b;c") 0 = Ok ([(0,1); (2,3); (4,5)], 3).
Proof. reflexivity. Qed.
