(* The program strtk_bloom_filter_example.cpp. *)
From Verif Require Import Base Comb_Model Codec_Model Bloom_Model IO_Model BFile_Model.
Local Open Scope nat_scope.

(* What it prints, without the times and rates; the line on sizes (79-84) is not modelled. *)
Inductive line :=
| Invalid_parameters              (* 71 *)
| Insert_done (count : N)         (* 126-129: element_count() *)
| Failed_to_find (s : list ascii) (* 143 *)
| Contain_done (count : N)        (* 151-154 *)
| Positives (elements found : N)  (* 182-187: small_element_count, false_positive_count *)
| Not_written                     (* 195 *)
| Not_read                        (* 200 *)
| No_match                        (* 205 *)
| Lost (s : list ascii)           (* 218 *)
| Replicated.                     (* 227 *)

(* new unsigned char[buffer_size], line 87: None is a byte without a value *)
Definition memory : Type := list (option ascii).

(* std::copy(s.data(), s.data() + s.size(), buf_itr), lines 101 and 104 *)
Fixpoint copy_to (s : list ascii) (buf : memory) (pos : nat) : outcome memory :=
  match s with
  | [] => Ok buf
  | c :: s' => buf <- wr buf pos (Some c) ;; copy_to s' buf (S pos)
  end.

(* [size] bytes from buf_itr on; a byte without a value or behind the buffer is undefined *)
Fixpoint key_at (buf : memory) (pos size : nat) : outcome (list ascii) :=
  match size with
  | 0 => Ok []
  | S size' =>
      o <- rd buf pos ;;
      match o with
      | None => UB
      | Some c => s <- key_at buf (S pos) size' ;; Ok (c :: s)
      end
  end.

Section Program.
Variable lt : ascii -> ascii -> bool.   (* < on char *)

(* 90-108; the counter real_elem is not used *)
Definition fill (fuel k : nat) (letters : list ascii) (buf : memory) : outcome memory :=
  loop fuel
    (fun '(itr, letters, buf, buf_itr) =>
       if ci_equal itr (ci_end letters) then Ok (inr buf)
       else
         let s := sub letters (0, k) in
         buf <- copy_to s buf buf_itr ;;
         let buf_itr := buf_itr + length s in
         s <- convert_to_uppercase s ;;
         buf <- copy_to s buf buf_itr ;;
         let buf_itr := buf_itr + length s in
         ' (itr, letters) <- ci_next lt itr letters ;;
         Ok (inl (itr, letters, buf, buf_itr)))
    (ci_start k, letters, buf, 0).

(* while (buf_end != buf_itr) { ...; buf_itr += step; }: the loops 118-122, 139-147, 169-178, 214-223 *)
Definition each_key {St : Type} (fuel step : nat) (buf : memory) (body : list ascii -> St -> outcome St) (st : St)
  : outcome St :=
  loop fuel
    (fun '(buf_itr, st) =>
       if length buf =? buf_itr then Ok (inr st)
       else
         key <- key_at buf buf_itr step ;;
         st <- body key st ;;
         Ok (inl (buf_itr + step, st)))
    (0, st).

(* 0.0001, line 58 *)
Definition probability (le : bool) : fpp := Binary_Model.store le 8 4547007122018943789%N.

(* 132-147 and 214-223 *)
Definition absent (f : Bloom_Model.filter) (report : list ascii -> line) (key : list ascii) (out : list line)
  : outcome (list line) :=
  b <- contains f key ;; Ok (if (b : bool) then out else out ++ [report key]).

(* 169-178; the counters are unsigned int *)
Definition tally (f : Bloom_Model.filter) (key : list ascii) (st : N * N) : outcome (N * N) :=
  let '(small_element_count, false_positive_count) := st in
  b <- contains f key ;;
  Ok (Bloom_Model.u32 (small_element_count + 1),
      if (b : bool) then Bloom_Model.u32 (false_positive_count + 1) else false_positive_count).

(* main, 50-235, for the letters of line 52 and the k of line 56; [min_k] and [min_m] come from the
   floating point search of compute_optimal_parameters; [file] is bloom_filter.bin; the two
   probabilities are neither zeros nor NaN and so compared as bytes. *)
Definition main (fuel : nat) (le : bool) (rnd : N -> nat -> N) (st : statics) (letters : list ascii) (k : nat)
  (min_k : N) (min_m : Z) (fs : fsys) (file : nat) : outcome (nat * list line * fsys) :=
  ' (_, c) <- n_choose_k fuel st (N.of_nat (length letters)) (N.of_nat k) ;;
  let element_count := Bloom_Model.u64 (2 * c) in
  let prm := Params 1 (2 ^ 64 - 1) 1 7 element_count 2779096485 0 0 in
  if bad_parameters prm then Ok (1, [Invalid_parameters], fs)
  else
    o <- compute_optimal_parameters min_k min_m prm ;;
    let prm := match o with Some p => p | None => prm end in
    filter <- new_filter fuel rnd prm ;;
    let buffer_size := Bloom_Model.u64 (N.of_nat k * element_count) in
    buffer <- fill fuel k letters (repeat None (N.to_nat buffer_size)) ;;
    filter <- each_key fuel k buffer (fun key f => insert f key) filter ;;
    let out := [Insert_done (inserted_count filter)] in
    out <- each_key fuel k buffer (absent filter Failed_to_find) out ;;
    let out := out ++ [Contain_done (inserted_count filter)] in
    ' (small, found) <- each_key fuel (k / 2) buffer (tally filter) (0%N, 0%N) ;;
    let out := out ++ [Positives small found] in
    ' (written, fs) <- write_to_file le true fs file filter (probability le) ;;
    if negb written then Ok (1, out ++ [Not_written], fs)
    else
      ' (r, secondary, d) <- read_from_file le true false fs file default_filter fpp_zero ;;
      if negb r then Ok (1, out ++ [Not_read], fs)
      else
        same <- Bloom_Model.equal (if list_eq_dec ascii_dec d (probability le) then true else false) secondary filter ;;
        if negb same then Ok (1, out ++ [No_match], fs)
        else
          lost <- each_key fuel k buffer (absent secondary Lost) [] ;;
          Ok (0, out ++ lost ++ (if length lost =? 0 then [Replicated] else []), fs).
End Program.
