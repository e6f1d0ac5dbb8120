(* bloom::parameters, bloom::filter, bloom::compressible_filter: strtk.hpp 19918-20669. *)
From Verif Require Import Base.
Open Scope N_scope.

Definition u32 (x : N) : N := x mod 2 ^ 32.
Definition u64 (x : N) : N := x mod 2 ^ 64.

(* 19921-19931 *)
Definition bits_per_char : N := 8.
Definition bit_mask : list N := [1; 2; 4; 8; 16; 32; 64; 128].

(* 19933-20014.  The probability (a double) only feeds the floating point
   search below and the estimate effective_fpp; it is not modelled. *)
Record parameters := Params {
  minimum_size : N; maximum_size : N;
  minimum_hashes : N; maximum_hashes : N;
  projected : N; random_seed : N;
  number_of_hashes : N; table_size : N }.

(* parameters::operator! without the conditions on the double: 19950-19961 *)
Definition bad_parameters (p : parameters) : bool :=
  (maximum_size p <? minimum_size p) || (maximum_hashes p <? minimum_hashes p) ||
  (minimum_hashes p <? 1) || (maximum_hashes p =? 0) || (projected p =? 0) ||
  (random_seed p =? 0) || (random_seed p =? 2 ^ 64 - 1).

(* 20018-20068.  min_k, min_m: the result of the floating point search
   (20031-20049), already truncated to integers; a value outside unsigned long
   long makes the cast on 20054 undefined. *)
Definition compute_optimal_parameters (min_k : N) (min_m : Z) (p : parameters) : outcome (option parameters) :=
  if bad_parameters p then Ok None
  else if ((min_m <? 0) || (2 ^ 64 <=? min_m))%Z then UB
  else
    let m := Z.to_N min_m in
    let m := u64 (m + (if negb (m mod bits_per_char =? 0) then bits_per_char - m mod bits_per_char else 0)) in
    let k := if min_k <? minimum_hashes p then minimum_hashes p
             else if maximum_hashes p <? min_k then maximum_hashes p else min_k in
    let m := if m <? minimum_size p then minimum_size p
             else if maximum_size p <? m then maximum_size p else m in
    Ok (Some (Params (minimum_size p) (maximum_size p) (minimum_hashes p) (maximum_hashes p)
                     (projected p) (random_seed p) k m)).

(* filter, 20572-20580.  bit_table_ is the allocated array; an uninitialised
   pointer is None.  sizes: size_list of compressible_filter (20666); for a
   plain filter, whose compute_indices (20438-20442) only uses table_size_, it is
   [table_size_]. *)
Record filter := Filter {
  salt : list N; bit_table : option (list N);
  salt_count : N; tsize : N; raw_table_size : N;
  projected_count : N; inserted_count : N; seed : N; sizes : list N }.

(* 20453-20487 *)
Definition predef_salt : list N :=
  [2863311530; 1431655765; 858993459; 3435973836; 1717986918; 2576980377; 3048584629; 1263225675;
   2857740885; 1429427507; 869020620; 3429289062; 1721329305; 2578815413; 3041637707; 1269451690;
   2855512627; 1439454668; 862335846; 3432631449; 1723164341; 2571868491; 3047863722; 2863311411;
   1431655884; 858993510; 3435973785; 1717986997; 2576980299; 3048584618; 4294967295; 4294901760;
   3089356267; 3239648479; 4129533619; 3679996319; 3369348720; 2977166870; 2837076327; 3661790563;
   2984813290; 4139831637; 1225391779; 2794243751; 3281381250; 2724222955; 215341608; 1182553234;
   4049496450; 1640430291; 2518016850; 1855862106; 1755010622; 211300776; 1733542283; 2787272859;
   2359704647; 1120675972; 2391380379; 1859901395; 364280172; 493871076; 1677693074; 3879736370;
   4026438674; 2930696057; 2669959729; 2210477820; 3285863052; 2769366156; 1383199889; 2593426859;
   3471153805; 3052742059; 1506882071; 619168561; 1769742595; 2226168928; 2249551273; 2935139432;
   589577637; 1063556675; 1604621736; 1735462392; 2590787998; 3707437607; 1185166387; 405975162;
   3295346492; 3116957680; 3377464423; 876813279; 3058844459; 3815239979; 1115638811; 575406190;
   780032649; 2532940453; 199968042; 802716729; 1957880315; 573504804; 4082628108; 1141885726;
   2344485647; 1728371753; 289722671; 2492142421; 1838143465; 470917140; 2916178223; 4215042350;
   4235682863; 4190424716; 825307065; 145808761; 831497959; 3225473597; 3227032231; 212189301;
   4168397170; 217650389; 2018325120; 1317863100; 3312055669; 3451035793; 750786228; 1549747233].

(* 20494-20503: in place, so the last three entries use already changed ones *)
Definition mix_salts (rseed : N) (s : list N) : outcome (list N) :=
  for_up 0 (length s) (fun i s =>
    a <- rd s i ;; b <- rd s ((i + 3) mod length s)%nat ;;
    wr s i (u32 (a * b + u32 rseed))) s.

(* 20510-20519; rnd: the sequence returned by rand() after srand(seed) *)
Definition more_salts (fuel : nat) (rnd : nat -> N) (count : nat) (s : list N) : outcome (list N) :=
  loop fuel (fun st : nat * list N =>
    let '(j, s) := st in
    if (length s <? count)%nat then
      let current := u32 (u32 (rnd (2 * j)%nat) * u32 (rnd (2 * j + 1)%nat)) in
      if current =? 0 then Ok (inl (S j, s))
      else if existsb (N.eqb current) s then Ok (inl (S j, s))
      else Ok (inl (S j, s ++ [current]))
    else Ok (inr s)) (O, s).

(* 20444-20521 *)
Definition generate_unique_salt (fuel : nat) (rnd : nat -> N) (count rseed : N) : outcome (list N) :=
  if count <=? 128 then mix_salts rseed (firstn (N.to_nat count) predef_salt)
  else more_salts fuel rnd (N.to_nat count) predef_salt.

(* 20092-20105, and 20608-20612 for the compressible filter *)
Definition new_filter (fuel : nat) (rnd : N -> nat -> N) (p : parameters) : outcome filter :=
  let rseed := u64 (random_seed p * 2779096485 + 1) in
  s <- generate_unique_salt fuel (rnd (u32 rseed)) (number_of_hashes p) rseed ;;
  let raw := table_size p / bits_per_char in
  Ok (Filter s (Some (repeat 0 (N.to_nat raw))) (number_of_hashes p) (table_size p) raw
             (projected p) 0 rseed [table_size p]).

Definition set_table (f : filter) (t : list N) : filter :=
  Filter (salt f) (Some t) (salt_count f) (tsize f) (raw_table_size f)
         (projected_count f) (inserted_count f) (seed f) (sizes f).
Definition set_count (f : filter) (n : N) : filter :=
  Filter (salt f) (bit_table f) (salt_count f) (tsize f) (raw_table_size f)
         (projected_count f) n (seed f) (sizes f).
(* dereferencing bit_table_ *)
Definition table (f : filter) : outcome (list N) :=
  match bit_table f with Some t => Ok t | None => UB end.

(* std::copy(src, src + n, dst) into freshly allocated memory of n cells *)
Definition copy_n (n : nat) (src : list N) : outcome (list N) :=
  if (length src <? n)%nat then UB else Ok (firstn n src).

(* operator=, 20136-20153, on two different objects.  this_table: the pointer
   before the assignment; delete[] of an uninitialised pointer is undefined. *)
Definition assign (f g : filter) : outcome filter :=
  _ <- table f ;;
  t <- table g ;;
  t' <- copy_n (N.to_nat (raw_table_size g)) t ;;
  Ok (Filter (salt g) (Some t') (salt_count g) (tsize g) (raw_table_size g)
             (projected_count g) (inserted_count g) (seed g) (sizes g)).
(* copy constructor, 20107-20110: no member is initialised before operator= *)
Definition copy_construct (g : filter) : outcome filter :=
  assign (Filter [] None 0 0 0 0 0 0 [0]) g.

(* clear, 20165-20169 *)
Definition clear (f : filter) : outcome filter :=
  t <- table f ;;
  let n := N.to_nat (raw_table_size f) in
  if (length t <? n)%nat then UB
  else Ok (set_count (set_table f (repeat 0 n ++ skipn n t)) 0).

(* ------------------------------------------------------------------ *)
(* hash_ap, 20523-20570.  Host byte order: little endian.  Unaligned reads
   through unsigned int* are taken as plain reads. *)
Definition byte_at (k : list ascii) (i : nat) : outcome N := c <- rd k i ;; Ok (N_of_ascii c).
Definition u16_at (k : list ascii) (i : nat) : outcome N :=
  a <- byte_at k i ;; b <- byte_at k (i + 1) ;; Ok (a + 256 * b).
Definition u32_at (k : list ascii) (i : nat) : outcome N :=
  a <- u16_at k i ;; b <- u16_at k (i + 2) ;; Ok (a + 65536 * b).
Definition shl32 (x n : N) : N := u32 (N.shiftl x n).
Definition not32 (x : N) : N := N.lxor x (2 ^ 32 - 1).

Definition mix1 (h i : N) : N := N.lxor (shl32 h 7) (u32 (i * N.shiftr h 3)).
Definition mix2 (h i : N) : N := not32 (u32 (shl32 h 11 + N.lxor i (N.shiftr h 5))).

Definition hash_ap (k : list ascii) (h0 : N) : outcome N :=
  ' (itr, rem, h) <- loop (S (length k)) (fun st : nat * nat * N =>
    let '(itr, rem, h) := st in
    if (8 <=? rem)%nat then
      i1 <- u32_at k itr ;; i2 <- u32_at k (itr + 4) ;;
      Ok (inl ((itr + 8)%nat, (rem - 8)%nat, N.lxor h (N.lxor (mix1 h i1) (mix2 h i2))))
    else Ok (inr st)) (O, length k, h0) ;;
  if (rem =? 0)%nat then Ok h
  else
    ' (itr, rem, h, lp) <-
      (if (4 <=? rem)%nat then i <- u32_at k itr ;; Ok ((itr + 4)%nat, (rem - 4)%nat, N.lxor h (mix2 h i), 1)
       else Ok (itr, rem, h, 0)) ;;
    ' (itr, rem, h, lp) <-
      (if (2 <=? rem)%nat then
         i <- u16_at k itr ;;
         Ok ((itr + 2)%nat, (rem - 2)%nat,
             N.lxor h (if N.testbit lp 0 then mix1 h i else mix2 h i), lp + 1)
       else Ok (itr, rem, h, lp)) ;;
    if (rem =? 0)%nat then Ok h
    else c <- byte_at k itr ;; Ok (u32 (h + (N.lxor c (u32 (h * 2779096485)) + lp))).

(* compute_indices, 20438-20442 and 20656-20664; x % 0 is undefined *)
Fixpoint reduce (l : list N) (x : N) : outcome N :=
  match l with
  | [] => Ok x
  | m :: l' => if m =? 0 then UB else reduce l' (x mod m)
  end.
Definition compute_indices (f : filter) (hash : N) : outcome (N * N) :=
  i <- reduce (sizes f) hash ;; Ok (i, i mod bits_per_char).

(* insert, 20171-20181 *)
Fixpoint insert_salts (f : filter) (k : list ascii) (ss : list N) (t : list N) : outcome (list N) :=
  match ss with
  | [] => Ok t
  | s :: ss' =>
      h <- hash_ap k s ;;
      ' (i, b) <- compute_indices f h ;;
      m <- rd bit_mask (N.to_nat b) ;;
      c <- rd t (N.to_nat (i / bits_per_char)) ;;
      t' <- wr t (N.to_nat (i / bits_per_char)) (N.lor c m) ;;
      insert_salts f k ss' t'
  end.
Definition insert (f : filter) (k : list ascii) : outcome filter :=
  t <- table f ;;
  t' <- insert_salts f k (salt f) t ;;
  Ok (set_count (set_table f t') (u32 (inserted_count f + 1))).

(* insert(begin,end), 20200-20208 *)
Fixpoint insert_all (f : filter) (ks : list (list ascii)) : outcome filter :=
  match ks with [] => Ok f | k :: ks' => f' <- insert f k ;; insert_all f' ks' end.

(* contains, 20210-20223 *)
Fixpoint contains_salts (f : filter) (k : list ascii) (ss : list N) (t : list N) : outcome bool :=
  match ss with
  | [] => Ok true
  | s :: ss' =>
      h <- hash_ap k s ;;
      ' (i, b) <- compute_indices f h ;;
      m <- rd bit_mask (N.to_nat b) ;;
      c <- rd t (N.to_nat (i / bits_per_char)) ;;
      if negb (N.land c m =? m) then Ok false else contains_salts f k ss' t
  end.
Definition contains (f : filter) (k : list ascii) : outcome bool :=
  match salt f with
  | [] => Ok true
  | _ => t <- table f ;; contains_salts f k (salt f) t
  end.

(* contains_all / contains_none, 20241-20269: position of the result *)
Fixpoint contains_scan (f : filter) (want : bool) (ks : list (list ascii)) (i : nat) : outcome nat :=
  match ks with
  | [] => Ok i
  | k :: ks' => b <- contains f k ;; if Bool.eqb b want then contains_scan f want ks' (S i) else Ok i
  end.
Definition contains_all (f : filter) ks := contains_scan f true ks 0.
Definition contains_none (f : filter) ks := contains_scan f false ks 0.

(* &=, |=, ^=: 20293-20342, op = N.land, N.lor, N.lxor *)
Definition compatible (f g : filter) : bool :=
  (salt_count f =? salt_count g) && (tsize f =? tsize g) && (seed f =? seed g).
Definition combine (op : N -> N -> N) (f g : filter) : outcome filter :=
  if compatible f g then
    t <- table f ;;
    u <- table g ;;
    t' <- for_up 0 (N.to_nat (raw_table_size f)) (fun i t =>
      a <- rd t i ;; b <- rd u i ;; wr t i (op a b)) t ;;
    Ok (set_table f t')
  else Ok f.

(* operators &, |, ^ on two filters: 20583-20602 *)
Definition combine_new (op : N -> N -> N) (f g : filter) : outcome filter :=
  r <- copy_construct f ;; combine op r g.

(* operator==, 20112-20129, on two different objects; the two doubles are
   compared by the caller-supplied fpp_eq *)
Definition equal (fpp_eq : bool) (f g : filter) : outcome bool :=
  if (salt_count f =? salt_count g) && (tsize f =? tsize g) &&
     (raw_table_size f =? raw_table_size g) && (projected_count f =? projected_count g) &&
     (inserted_count f =? inserted_count g) && (seed f =? seed g) && fpp_eq &&
     (if list_eq_dec N.eq_dec (salt f) (salt g) then true else false)
  then
    t <- table f ;; u <- table g ;;
    let n := N.to_nat (raw_table_size f) in
    if ((length t <? n) || (length u <? n))%nat then UB
    else Ok (if list_eq_dec N.eq_dec (firstn n u) (firstn n t) then true else false)
  else Ok false.

(* compressible_filter::compress, 20619-20652.  target: the product
   size * (1 - percentage / 100) truncated to an integer (20627); in_range:
   0 < percentage < 100. *)
Definition compress (in_range : bool) (target : N) (f : filter) : outcome (option filter) :=
  if negb in_range then Ok None
  else
    let original := last (sizes f) 0 in
    let new := target - target mod bits_per_char in
    if (new <? bits_per_char) || (original <=? new) then Ok None
    else
      t <- table f ;;
      let n := N.to_nat (new / bits_per_char) in
      let o := N.to_nat (original / bits_per_char) in
      tmp <- copy_n n t ;;
      tmp' <- for_up 0 (o - n) (fun j tmp =>
        a <- rd tmp j ;; b <- rd t (n + j) ;; wr tmp j (N.lor a b)) tmp ;;
      Ok (Some (Filter (salt f) (Some tmp') (salt_count f) (tsize f) (raw_table_size f)
                       (projected_count f) (inserted_count f) (seed f) (sizes f ++ [new]))).
