(* Hex and base64 conversion, printable characters, letter case:
   /repo/strtk.hpp 4384-4856.  Bytes are [ascii]. *)
From Verif Require Import Base Codec_Tables.

(* *(p + itr) used as unsigned char index *)
Definition byte (c : ascii) : N := N_of_ascii c.
(* static_cast<unsigned char>(n) *)
Definition to_byte (n : N) : ascii := ascii_of_N (n mod 256).
(* table[b] for an unsigned index *)
Definition lookup {A} (table : list A) (n : N) : outcome A := rd table (N.to_nat n).

(* strtk.hpp 4422-4426.  The two-byte store through unsigned short* is two byte stores,
   low byte first (little-endian host; alignment of out is not modelled). *)
Definition convert_bin_to_hex (s out : list ascii) : outcome (list ascii) :=
  for_up 0 (length s)
    (fun i out =>
       c <- rd s i ;;
       w <- lookup hex_lut (byte c) ;;
       out <- wr out (2 * i) (to_byte w) ;;
       wr out (2 * i + 1) (to_byte (N.shiftr w 8))) out.

(* std::string::resize(n): keeps or zero-fills *)
Definition resize (s : list ascii) (n : nat) : list ascii :=
  firstn n s ++ repeat zero (n - length s).

(* strtk.hpp 4451-4458 *)
Definition convert_bin_to_hex_str (s output : list ascii) : outcome (list ascii) :=
  convert_bin_to_hex s (resize output (length s * 2)).

(* strtk.hpp 4467-4522; result: return value and the output buffer *)
Definition convert_hex_to_bin (s out : list ascii) : outcome (bool * list ascii) :=
  if length s =? 0 then Ok (false, out)
  else if length s mod 2 =? 1 then Ok (false, out)
  else
    out <- loop (S (length s))
      (fun '(itr, out, pos) =>
         if length s =? itr then Ok (inr out)
         else
           c0 <- rd s itr ;;
           h0 <- lookup hex_to_bin_table (byte c0) ;;
           c1 <- rd s (itr + 1) ;;
           h1 <- lookup hex_to_bin_table (byte c1) ;;
           out <- wr out pos (to_byte (N.lor (N.shiftl h0 4) h1)) ;;
           Ok (inl (itr + 2, out, pos + 1)))
      (0, out, 0) ;;
    Ok (true, out).

(* strtk.hpp 4551-4561 *)
Definition convert_hex_to_bin_str (s output : list ascii) : outcome (bool * list ascii) :=
  if (length s =? 0) || (length s mod 2 =? 1) then Ok (false, output)
  else convert_hex_to_bin s (resize output (length s / 2)).

(* write v at pos, advance *)
Definition put (out : list ascii) (pos : nat) (v : ascii) : outcome (list ascii * nat) :=
  out' <- wr out pos v ;; Ok (out', S pos).

Definition b64char (block sh : N) : outcome ascii :=
  lookup bin_to_base64_table (N.land (N.shiftr block sh) 63).

(* strtk.hpp 4563-4609 *)
Definition convert_bin_to_base64 (s out : list ascii) : outcome (nat * list ascii) :=
  let len := length s in
  let rounds := len / 3 in
  '(itr, out, pos) <-
    for_up 0 rounds
      (fun _ '(itr, out, pos) =>
         a <- rd s itr ;; b <- rd s (itr + 1) ;; c <- rd s (itr + 2) ;;
         let block := N.lor (N.lor (N.shiftl (byte a) 16) (N.shiftl (byte b) 8)) (byte c) in
         c1 <- b64char block 18 ;; '(out, pos) <- put out pos c1 ;;
         c2 <- b64char block 12 ;; '(out, pos) <- put out pos c2 ;;
         c3 <- b64char block 6 ;; '(out, pos) <- put out pos c3 ;;
         c4 <- b64char block 0 ;; '(out, pos) <- put out pos c4 ;;
         Ok (itr + 3, out, pos))
      (0, out, 0) ;;
  out <-
    (match len mod 3 with
     | 1 =>
         a <- rd s itr ;;
         let block := N.shiftl (byte a) 16 in
         c1 <- b64char block 18 ;; '(out, pos) <- put out pos c1 ;;
         c2 <- b64char block 12 ;; '(out, pos) <- put out pos c2 ;;
         '(out, pos) <- put out pos "="%char ;;
         '(out, pos) <- put out pos "="%char ;;
         Ok out
     | 2 =>
         a <- rd s itr ;; b <- rd s (itr + 1) ;;
         let block := N.lor (N.shiftl (byte a) 16) (N.shiftl (byte b) 8) in
         c1 <- b64char block 18 ;; '(out, pos) <- put out pos c1 ;;
         c2 <- b64char block 12 ;; '(out, pos) <- put out pos c2 ;;
         c3 <- b64char block 6 ;; '(out, pos) <- put out pos c3 ;;
         '(out, pos) <- put out pos "="%char ;;
         Ok out
     | _ => Ok out
     end) ;;
  Ok ((len / 3) * 4 + (if 0 <? len mod 3 then 4 else 0), out).

(* strtk.hpp 4618-4626 *)
Definition convert_bin_to_base64_str (s output : list ascii) : outcome (list ascii) :=
  '(n, out) <- convert_bin_to_base64 s (resize output (Nat.max 4 (length s * 2))) ;;
  Ok (resize out n).

(* *(end - k): reading before the beginning is undefined *)
Definition rd_from_end {A} (s : list A) (k : nat) : outcome A :=
  if length s <? k then UB else rd s (length s - k).

Definition unb64 (c : ascii) : outcome N := lookup base64_to_bin_table (byte c).
Definition block_byte (block sh : N) : ascii := to_byte (N.land (N.shiftr block sh) 255).

(* strtk.hpp 4628-4714 *)
Definition convert_base64_to_bin (s out : list ascii) : outcome (nat * list ascii) :=
  e2 <- rd_from_end s 2 ;;
  end_itr <- (if Ascii.eqb "="%char e2 then Ok (length s - 2)
              else e1 <- rd_from_end s 1 ;;
                   if Ascii.eqb "="%char e1 then Ok (length s - 1) else Ok (length s)) ;;
  let len := end_itr in
  let rounds := len / 4 in
  '(itr, out, pos) <-
    for_up 0 rounds
      (fun _ '(itr, out, pos) =>
         a <- rd s itr ;; va <- unb64 a ;;
         b <- rd s (itr + 1) ;; vb <- unb64 b ;;
         c <- rd s (itr + 2) ;; vc <- unb64 c ;;
         d <- rd s (itr + 3) ;; vd <- unb64 d ;;
         let block := N.lor (N.lor (N.lor (N.shiftl va 18) (N.shiftl vb 12)) (N.shiftl vc 6)) vd in
         '(out, pos) <- put out pos (block_byte block 16) ;;
         '(out, pos) <- put out pos (block_byte block 8) ;;
         '(out, pos) <- put out pos (block_byte block 0) ;;
         Ok (itr + 4, out, pos))
      (0, out, 0) ;;
  out <-
    (match len mod 4 with
     | 2 =>
         a <- rd s itr ;; va <- unb64 a ;;
         b <- rd s (itr + 1) ;; vb <- unb64 b ;;
         let block := N.lor (N.shiftl va 18) (N.shiftl vb 12) in
         '(out, pos) <- put out pos (block_byte block 16) ;;
         Ok out
     | 3 =>
         a <- rd s itr ;; va <- unb64 a ;;
         b <- rd s (itr + 1) ;; vb <- unb64 b ;;
         c <- rd s (itr + 2) ;; vc <- unb64 c ;;
         let block := N.lor (N.lor (N.shiftl va 18) (N.shiftl vb 12)) (N.shiftl vc 6) in
         '(out, pos) <- put out pos (block_byte block 16) ;;
         '(out, pos) <- put out pos (block_byte block 8) ;;
         Ok out
     | _ => Ok out
     end) ;;
  Ok (3 * len / 4, out).

(* strtk.hpp 4723-4730 *)
Definition convert_base64_to_bin_str (s output : list ascii) : outcome (list ascii) :=
  '(n, out) <- convert_base64_to_bin s (resize output (length s)) ;;
  Ok (resize out n).

(* in-place map over a buffer: the shape of the next three loops *)
Definition map_inplace (f : ascii -> outcome ascii) (s : list ascii) : outcome (list ascii) :=
  for_up 0 (length s) (fun i s => c <- rd s i ;; v <- f c ;; wr s i v) s.

(* strtk.hpp 4770-4776 *)
Definition convert_to_printable_chars (s : list ascii) : outcome (list ascii) :=
  map_inplace (fun c => v <- lookup printable_char_table (byte c) ;; Ok (to_byte v)) s.

(* ::toupper / ::tolower on an unsigned char value, "C" locale *)
Definition c_toupper (n : N) : N := if ((97 <=? n) && (n <=? 122))%N then (n - 32)%N else n.
Definition c_tolower (n : N) : N := if ((65 <=? n) && (n <=? 90))%N then (n + 32)%N else n.

(* strtk.hpp 4791-4801 and 4815-4825; as_lowercase/as_uppercase 4844-4856 are these on a copy *)
Definition convert_to_uppercase (s : list ascii) : outcome (list ascii) :=
  map_inplace (fun c => Ok (to_byte (c_toupper (byte c)))) s.
Definition convert_to_lowercase (s : list ascii) : outcome (list ascii) :=
  map_inplace (fun c => Ok (to_byte (c_tolower (byte c)))) s.
