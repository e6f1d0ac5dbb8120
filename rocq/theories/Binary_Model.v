(* binary::details (byte order), binary::reader, binary::writer,
   short_string / pascal_string: strtk.hpp lines 13712-14795. *)
From Verif Require Import Base.
Open Scope N_scope.

(* ------------------------------------------------------------------ *)
(* Byte order *)

(* strtk.hpp 13744-13748, convert(unsigned short): v is promoted to int, no
   shift overflows, the result is below 2^16. *)
Definition convert16 (v : N) : N :=
  N.lor (N.land (N.shiftr v 8) 0xFF) (N.land (N.shiftl v 8) 0xFFFF).

Definition shl32 (v k : N) : N := N.shiftl v k mod 2 ^ 32.
Definition shl64 (v k : N) : N := N.shiftl v k mod 2 ^ 64.

(* strtk.hpp 13750-13755, convert(unsigned int), 32-bit arithmetic. *)
Definition convert32 (v : N) : N :=
  N.lor (N.lor (N.lor (N.land (N.shiftr v 24) 0xFF) (N.land (shl32 v 24) 0xFF00))
               (N.land (shl32 v 8) 0xFF0000))
        (N.land (N.shiftr v 8) 0xFF000000).

(* strtk.hpp 13757-13764, convert(unsigned long long), 64-bit arithmetic. *)
Definition convert64 (v : N) : N :=
  N.lor (N.lor (N.lor (N.lor (N.lor (N.lor (N.lor
    (N.land (N.shiftr v 56) 0xFF) (N.land (shl64 v 56) 0xFF00000000000000))
    (N.land (N.shiftr v 40) 0xFF00)) (N.land (shl64 v 40) 0xFF000000000000))
    (N.land (N.shiftr v 24) 0xFF0000)) (N.land (shl64 v 24) 0xFF0000000000))
    (N.land (N.shiftr v 8) 0xFF000000)) (N.land (shl64 v 8) 0xFF00000000).

(* static_cast between a signed and the unsigned type of the same width
   (bits): value modulo 2^bits, two's complement. *)
Definition to_unsigned (bits : N) (z : Z) : N := Z.to_N (z mod 2 ^ Z.of_N bits).
Definition to_signed (bits : N) (v : N) : Z :=
  if (v <? 2 ^ (bits - 1)) then Z.of_N v else (Z.of_N v - 2 ^ Z.of_N bits)%Z.

(* strtk.hpp 13766-13779: the signed overloads go through the unsigned ones. *)
Definition convert_s16 (z : Z) : Z := to_signed 16 (convert16 (to_unsigned 16 z)).
Definition convert_s32 (z : Z) : Z := to_signed 32 (convert32 (to_unsigned 32 z)).
Definition convert_s64 (z : Z) : Z := to_signed 64 (convert64 (to_unsigned 64 z)).

(* The object representation of a w-byte unsigned value on a host that is
   little-endian (le = true) or big-endian: what *(T* )p = v stores and what
   *(T* )p loads.  Not library code: the meaning of the C++ accesses. *)
Fixpoint le_digits (w : nat) (v : N) : list ascii :=
  match w with
  | O => []
  | S w' => ascii_of_N (v mod 256) :: le_digits w' (v / 256)
  end.
Definition store (le : bool) (w : nat) (v : N) : list ascii :=
  if le then le_digits w v else rev (le_digits w v).
Fixpoint le_value (b : list ascii) : N :=
  match b with
  | [] => 0
  | c :: b' => N_of_ascii c + 256 * le_value b'
  end.
Definition load (le : bool) (b : list ascii) : N := le_value (if le then b else rev b).

(* strtk.hpp 13781-13834, convert_to_be / convert_to_le for one type: [conv] is
   the convert overload of that type, le = is_little_endian(). *)
Definition convert_to_be {A} (le : bool) (conv : A -> A) (v : A) : A := if le then conv v else v.
Definition convert_to_le {A} (le : bool) (conv : A -> A) (v : A) : A := if negb le then conv v else v.
(* 13836-13839: convert_to_le(long long) returns an unsigned long long *)
Definition convert_to_le_s64 (le : bool) (z : Z) : N := to_unsigned 64 (convert_to_le le convert_s64 z).

(* ------------------------------------------------------------------ *)
(* Cursor: members of reader (14311-14315) and writer (14703-14707).
   buf  = the bytes from original_buffer_ on; buffer_length_ = its length
          (the constructor 13880-13887 / 14328-14334 is trusted to be given
          the real length);
   cur  = buffer_ - original_buffer_;
   amt  = amount_read_sofar_ / amount_written_sofar_;
   marks = the marker stack, top first (13841-13867). *)
Record bst := St { buf : list ascii; cur : nat; amt : nat; marks : list (nat * nat) }.

Definition start (b : list ascii) : bst := St b 0 0 [].

(* 14221-14224, 14618-14621: buffer_capacity_ok.  req < 2^64 - buffer size in
   every call, so the size_t sum does not wrap. *)
Definition capacity_ok (st : bst) (req : N) : bool :=
  req + N.of_nat (amt st) <=? N.of_nat (length (buf st)).

(* buffer_ += n; amount += n *)
Definition advance (st : bst) (n : nat) : bst := St (buf st) (cur st + n) (amt st + n) (marks st).

(* std::copy(buffer_, buffer_ + n, ...) *)
Definition get_bytes (st : bst) (n : nat) : outcome (list ascii) :=
  if (cur st + n <=? length (buf st))%nat then Ok (firstn n (skipn (cur st) (buf st))) else UB.

(* std::copy(src, src + n, buffer_) *)
Definition put_bytes (st : bst) (b : list ascii) : outcome bst :=
  if (cur st + length b <=? length (buf st))%nat
  then Ok (St (firstn (cur st) (buf st) ++ b ++ skipn (cur st + length b) (buf st)) (cur st) (amt st) (marks st))
  else UB.

(* 13896-13902 / 14343-14349 reset(clear_buffer), 13950-13954 / 14366-14370 clear *)
Definition reset (st : bst) : bst := St (buf st) 0 0 (marks st).
Definition clear (st : bst) : bst := St (repeat "000"%char (length (buf st))) 0 0 (marks st).

(* 13919-13929 rewind *)
Definition rewind (n : N) (st : bst) : outcome (bool * bst) :=
  if n <=? N.of_nat (amt st) then
    if (N.to_nat n <=? cur st)%nat
    then Ok (true, St (buf st) (cur st - N.to_nat n) (amt st - N.to_nat n) (marks st))
    else UB (* pointer formed before the start of the buffer *)
  else Ok (false, st).

(* 13931-13948 seek: -n_bytes overflows for INT_MIN *)
Definition seek (n : Z) (st : bst) : outcome (bool * bst) :=
  if (n <? 0)%Z then
    if (n =? - 2 ^ 31)%Z then UB else rewind (Z.to_N (- n)) st
  else if (0 <? n)%Z then
    if N.of_nat (amt st) + Z.to_N n <=? N.of_nat (length (buf st)) then
      if (cur st + Z.to_nat n <=? length (buf st))%nat then Ok (true, advance st (Z.to_nat n))
      else UB (* pointer formed past the end of the buffer *)
    else Ok (false, st)
  else Ok (true, st).

(* 14205-14213 / 14602-14610 mark and reset_to_mark; 13849-13862 the stack *)
Definition mark (st : bst) : bst := St (buf st) (cur st) (amt st) ((amt st, cur st) :: marks st).
Definition reset_to_mark (st : bst) : bool * bst :=
  match marks st with
  | [] => (false, st)
  | (a, c) :: m => (true, St (buf st) c a m)
  end.

(* 14117-14129: filling the buffer from a stream that can deliver [data]. *)
Definition load_stream (data : list ascii) (len : N) (st : bst) : bool * bst :=
  if N.of_nat (length (buf st)) <? len then (false, st)
  else let d := firstn (N.to_nat len) data in
       (true, St (d ++ skipn (length d) (buf st)) (cur st) (amt st) (marks st)).
Definition load_stream_amt (data : list ascii) (st : bst) : bool * bst :=
  if (amt st =? 0)%nat then (false, st)
  else let d := firstn (amt st) data in
       (true, St (d ++ skipn (length d) (buf st)) (cur st) (amt st) (marks st)).

(* ------------------------------------------------------------------ *)
(* Types of the values that reader and writer transfer.
   TPod w      a POD of w bytes (object representation only);
   TStr        std::string;
   TArr w      T* with an uint32_t length, read_length / write_length = true;
   TFix n w    T[n], and T* with read_length / write_length = false;
   TShort k    short_string (k = 2) / pascal_string (k = 1);
   TVec t      std::vector; TSeq t  std::deque, std::list;
   TSet t      std::set, std::multiset;
   TPair       std::pair, and with TUnit the field lists of the macros
               strtk_binary_reader/writer (14710-14728). *)
Inductive ty :=
| TUnit | TPod (w : nat) | TStr | TArr (w : nat) | TFix (n w : nat) | TShort (k : nat)
| TVec (t : ty) | TSeq (t : ty) | TSet (t : ty) | TPair (a b : ty).

(* VBytes: bytes of a POD, a string or an array; VArr: length and bytes;
   VList: container contents in iteration order.  For a set the value is the
   list of arguments of insert() in call order: ordering and deduplication by
   the comparator are the container's business. *)
Inductive val :=
| VUnit | VBytes (b : list ascii) | VArr (n : N) (b : list ascii)
| VList (l : list val) | VPair (a b : val).

Definition is_pod (t : ty) : bool := match t with TPod _ => true | _ => false end.

(* T t = T() *)
Fixpoint default (t : ty) : val :=
  match t with
  | TUnit => VUnit
  | TPod w => VBytes (repeat "000"%char w)
  | TStr | TShort _ => VBytes []
  | TFix n w => VBytes (repeat "000"%char (n * w))
  | TArr _ => VArr 0 []
  | TVec _ | TSeq _ | TSet _ => VList []
  | TPair a b => VPair (default a) (default b)
  end.

Definition vbytes (v : val) : list ascii :=
  match v with VBytes b => b | VArr _ b => b | _ => [] end.
Definition vlist (v : val) : list val := match v with VList l => l | _ => [] end.

(* cut n groups of w bytes *)
Fixpoint chunks (w n : nat) (b : list ascii) : list (list ascii) :=
  match n with
  | O => []
  | S n' => firstn w b :: chunks w n' (skipn w b)
  end.

(* for (i = 0; i < n; ++i) { if (!reader(t)) return false; use(t); } where t is
   declared outside the loop; collects the values used. *)
Fixpoint read_n (f : val -> bst -> outcome (bool * val * bst)) (n : nat) (t : val) (st : bst)
  : outcome (bool * list val * bst) :=
  match n with
  | O => Ok (true, [], st)
  | S k =>
      ' (b, t1, st1) <- f t st ;;
      if (b : bool) then ' (b2, l, st2) <- read_n f k t1 st1 ;; Ok (b2, t1 :: l, st2)
      else Ok (false, [], st1)
  end.

Definition vresize (n : nat) (d : val) (l : list val) : list val :=
  firstn n l ++ repeat d (n - length l).

Section Host.
(* le: host byte order (13712-13731).
   ei: is v[0] on an empty std::vector undefined behaviour?  true = ISO C++;
       false = what common implementations do (the pointer is never used).
   sz: sizeof of the types that are not PODs. *)
Variable le : bool.
Variable ei : bool.
Variable sz : ty -> N.

Definition sizeof (t : ty) : N := match t with TPod w => N.of_nat w | _ => sz t end.

(* 14293-14309 read_pod.  The load may be misaligned; alignment is not modelled. *)
Definition read_pod (w : nat) (st : bst) : outcome (option (list ascii) * bst) :=
  if capacity_ok st (N.of_nat w) then
    b <- get_bytes st w ;; Ok (Some b, advance st w)
  else Ok (None, st).

(* 13959, 13994, 14027: reading an uint32_t length *)
Definition read_u (w : nat) (st : bst) : outcome (option N * bst) :=
  ' (o, st1) <- read_pod w st ;;
  Ok (match o with Some b => Some (load le b) | None => None end, st1).

(* common tail of the array and string readers: check, copy, advance *)
Definition read_raw (raw : N) (st : bst) : outcome (option (list ascii) * bst) :=
  if capacity_ok st raw then
    b <- get_bytes st (N.to_nat raw) ;; Ok (Some b, advance st (N.to_nat raw))
  else Ok (None, st).

(* binary::reader operator() for one object of type t whose current value is v0;
   returns success, the value left in the object, and the reader. *)
Fixpoint read (t : ty) (v0 : val) (st : bst) : outcome (bool * val * bst) :=
  match t with
  | TUnit => Ok (true, VUnit, st)
  | TPod w => (* 14131-14135, 14264-14270 *)
      ' (o, st1) <- read_pod w st ;;
      match o with Some b => Ok (true, VBytes b, st1) | None => Ok (false, v0, st1) end
  | TStr => (* 13991-14009 *)
      ' (o, st1) <- read_u 4 st ;;
      match o with
      | None => Ok (false, v0, st1)
      | Some len =>
          ' (r, st2) <- read_raw len st1 ;;
          match r with Some b => Ok (true, VBytes b, st2) | None => Ok (false, v0, st2) end
      end
  | TArr w => (* 13956-13976 with read_length; the length variable is assigned first *)
      ' (o, st1) <- read_u 4 st ;;
      match o with
      | None => Ok (false, v0, st1)
      | Some len =>
          ' (r, st2) <- read_raw (len * N.of_nat w) st1 ;;
          match r with Some b => Ok (true, VArr len b, st2) | None => Ok (false, VArr len (vbytes v0), st2) end
      end
  | TFix n w => (* 14171-14189 *)
      ' (r, st1) <- read_raw (N.of_nat (n * w)) st ;;
      match r with Some b => Ok (true, VBytes b, st1) | None => Ok (false, v0, st1) end
  | TShort k => (* 14756-14769: resize first, then read into the string *)
      ' (o, st1) <- read_u k st ;;
      match o with
      | None => Ok (false, v0, st1)
      | Some len =>
          ' (r, st2) <- read_raw len st1 ;;
          match r with
          | Some b => Ok (true, VBytes b, st2)
          | None => Ok (false, VBytes (firstn (N.to_nat len) (vbytes v0)
                                       ++ repeat "000"%char (N.to_nat len - length (vbytes v0))), st2)
          end
      end
  | TVec t' => (* 14052-14067 *)
      ' (o, st1) <- read_u 4 st ;;
      match o with
      | None => Ok (false, v0, st1)
      | Some size =>
          if negb (capacity_ok st1 (size * sizeof t')) then Ok (false, v0, st1)
          else
            let n := N.to_nat size in
            match t' with
            | TPod w => (* 14272-14285 *)
                if ei && (n =? 0)%nat then UB
                else b <- get_bytes st1 (w * n) ;;
                     Ok (true, VList (map VBytes (chunks w n b)), advance st1 (w * n))
            | _ => (* 14240-14258 *)
                let v1 := vresize n (default t') (vlist v0) in
                ' (b, l, st2) <- read_n (read t') n (default t') st1 ;;
                Ok (b, VList (l ++ skipn (length l) v1), st2)
            end
      end
  | TSeq t' | TSet t' => (* 14021-14050; 14069-14115 *)
      ' (o, st1) <- read_u 4 st ;;
      match o with
      | None => Ok (false, v0, st1)
      | Some size =>
          if negb (capacity_ok st1 (size * sizeof t')) then Ok (false, v0, st1)
          else
            ' (b, l, st2) <- read_n (read t') (N.to_nat size) (default t') st1 ;;
            Ok (b, VList (vlist v0 ++ l), st2)
      end
  | TPair a b => (* 14011-14019 *)
      let (va, vb) := match v0 with VPair x y => (x, y) | _ => (default a, default b) end in
      ' (r, va1, st1) <- read a va st ;;
      if (r : bool) then
        ' (r2, vb1, st2) <- read b vb st1 ;; Ok (r2, VPair va1 vb1, st2)
      else Ok (false, VPair va1 vb, st1)
  end.

(* 14683-14701 write_pod *)
Definition write_pod (b : list ascii) (st : bst) : outcome (bool * bst) :=
  if (N.of_nat (length (buf st)) <? N.of_nat (length b) + N.of_nat (amt st)) then Ok (false, st)
  else st1 <- put_bytes st b ;; Ok (true, advance st1 (length b)).

(* common tail of the array writers (14378-14387, 14396-14405): raw bytes are
   taken from [src]; reading past the end of the source is undefined. *)
Definition write_raw (src : list ascii) (raw : N) (st : bst) : outcome (bool * bst) :=
  if negb (capacity_ok st raw) then Ok (false, st)
  else if N.of_nat (length src) <? raw then UB
  else st1 <- put_bytes st (firstn (N.to_nat raw) src) ;; Ok (true, advance st1 (N.to_nat raw)).

Fixpoint write_list (f : val -> bst -> outcome (bool * bst)) (l : list val) (st : bst)
  : outcome (bool * bst) :=
  match l with
  | [] => Ok (true, st)
  | v :: l' => ' (b, st1) <- f v st ;; if (b : bool) then write_list f l' st1 else Ok (false, st1)
  end.

Definition u32 (n : nat) : N := N.of_nat n mod 2 ^ 32.

(* binary::writer operator() for one value.  A value that does not belong to
   the type cannot occur in C++; the model then does nothing. *)
Fixpoint write (t : ty) (v : val) (st : bst) : outcome (bool * bst) :=
  match t, v with
  | TUnit, VUnit => Ok (true, st)
  | TPod w, VBytes b => write_pod b st (* 14540-14544, 14655-14662 *)
  | TStr, VBytes b => (* 14436-14439 through 14390-14406 *)
      ' (r, st1) <- write_pod (store le 4 (u32 (length b))) st ;;
      if (r : bool) then write_raw b (u32 (length b)) st1 else Ok (false, st1)
  | TArr w, VArr n b => (* 14390-14406 *)
      ' (r, st1) <- write_pod (store le 4 n) st ;;
      if (r : bool) then write_raw b (n * N.of_nat w) st1 else Ok (false, st1)
  | TFix n w, VBytes b => write_raw b (N.of_nat (n * w)) st (* 14372-14388 *)
  | TShort k, VBytes b => (* 14771-14783 *)
      if 2 ^ (8 * N.of_nat k) - 1 <? N.of_nat (length b) then Ok (false, st)
      else ' (r, st1) <- write_pod (store le k (N.of_nat (length b))) st ;;
           if (r : bool) then write_raw b (N.of_nat (length b)) st1 else Ok (false, st1)
  | TVec t', VList l => (* 14468-14479 *)
      let size := u32 (length l) in
      let raw := size * sizeof t' in
      if negb (capacity_ok st (raw + 4)) then Ok (false, st)
      else ' (r, st1) <- write_pod (store le 4 size) st ;;
           if (r : bool) then
             match t' with
             | TPod w => (* 14664-14675 *)
                 if ei && (length l =? 0)%nat then UB
                 else if (length (concat (map vbytes l)) <? N.to_nat raw)%nat then UB
                 else st2 <- put_bytes st1 (firstn (N.to_nat raw) (concat (map vbytes l))) ;;
                      Ok (true, advance st2 (N.to_nat raw))
             | _ => write_list (write t') l st1 (* 14637-14652 *)
             end
           else Ok (false, st1)
  | TSeq t', VList l => (* 14441-14461 *)
      ' (r, st1) <- write_pod (store le 4 (u32 (length l))) st ;;
      if (r : bool) then write_list (write t') l st1 else Ok (false, st1)
  | TSet t', VList l => (* 14481-14532 *)
      let size := u32 (length l) in
      ' (r, st1) <- write_pod (store le 4 size) st ;;
      if (r : bool) then
        if negb (capacity_ok st1 (size * sizeof t')) then Ok (false, st1)
        else write_list (write t') l st1
      else Ok (false, st1)
  | TPair a b, VPair x y => (* 14426-14434 *)
      ' (r, st1) <- write a x st ;;
      if (r : bool) then write b y st1 else Ok (false, st1)
  | _, _ => Ok (false, st)
  end.

(* 14546-14566 native_to_be / native_to_le and 14143-14169 be_to_native /
   le_to_native for a w-byte unsigned type whose convert overload is conv. *)
Definition native_to_be (w : nat) (conv : N -> N) (v : N) (st : bst) : outcome (bool * bst) :=
  if le then write_pod (store le w (conv v)) st else write_pod (store le w v) st.
Definition native_to_le (w : nat) (conv : N -> N) (v : N) (st : bst) : outcome (bool * bst) :=
  if le then write_pod (store le w v) st else write_pod (store le w (conv v)) st.
Definition be_to_native (w : nat) (conv : N -> N) (st : bst) : outcome (option N * bst) :=
  ' (o, st1) <- read_u w st ;;
  Ok (match o with None => None | Some v => Some (if le then conv v else v) end, st1).
Definition le_to_native (w : nat) (conv : N -> N) (st : bst) : outcome (option N * bst) :=
  ' (o, st1) <- read_u w st ;;
  Ok (match o with None => None | Some v => Some (if le then v else conv v) end, st1).

(* 13978-13989: T* with a 64-bit length; data is the caller's array when
   read_length is false.  Returns success, length and bytes. *)
Definition read_arr64 (w : nat) (read_length : bool) (length0 : N) (data : list ascii) (st : bst)
  : outcome (bool * N * list ascii * bst) :=
  if read_length then
    ' (o, st1) <- read_u 4 st ;;
    match o with
    | None => Ok (false, length0, data, st1)
    | Some len =>
        ' (r, st2) <- read_raw (len * N.of_nat w) st1 ;;
        match r with Some b => Ok (true, len, b, st2) | None => Ok (false, length0, data, st2) end
    end
  else
    (* l stays 0 *)
    ' (r, st1) <- read_raw (0 * N.of_nat w) st ;;
    match r with
    | Some b => Ok (true, length0, b ++ skipn (length b) data, st1)
    | None => Ok (false, length0, data, st1)
    end.

(* 14191-14203: text field of fixed width; conv = string_to_type_converter. *)
Definition read_text {A} (conv : list ascii -> bool * A) (size : N) (st : bst)
  : outcome (option (bool * A) * bst) :=
  if capacity_ok st size then
    b <- get_bytes st (N.to_nat size) ;; Ok (Some (conv b), advance st (N.to_nat size))
  else Ok (None, st).

(* 14568-14600: text = what type_to_string produced.  rpad: right_padding; the copy may also read
   the terminating NUL behind the string. *)
Definition write_text (text : list ascii) (size : N) (rpad : bool) (pad : ascii) (st : bst)
  : outcome (bool * bst) :=
  if (N.of_nat (amt st) + size <=? N.of_nat (length (buf st))) then
    let k := N.to_nat size in
    if size <? N.of_nat (length text) then Ok (false, st)
    else
      let s := if N.of_nat (length text) <? size then
                 if rpad then firstn (k - length text) text ++ repeat pad (k - length text - length text)
                 else repeat pad (k - length text) ++ text
               else text in
      write_raw (s ++ ["000"%char]) (size mod 2 ^ 32) st
  else Ok (false, st).

End Host.

(* Consecutive calls joined by &&, as in 14710-14728 and 20372-20380: stop at the first
   failure.  On reading, the values read so far are returned. *)
Fixpoint write_fields le ei sz (l : list (ty * val)) (st : bst) : outcome (bool * bst) :=
  match l with
  | [] => Ok (true, st)
  | (t, v) :: l' => ' (r, st1) <- write le ei sz t v st ;;
                    if (r : bool) then write_fields le ei sz l' st1 else Ok (false, st1)
  end.
Fixpoint read_fields le ei sz (l : list ty) (st : bst) : outcome (bool * list val * bst) :=
  match l with
  | [] => Ok (true, [], st)
  | t :: l' => ' (r, v, st1) <- read le ei sz t (default t) st ;;
               if (r : bool) then ' (r2, vs, st2) <- read_fields le ei sz l' st1 ;; Ok (r2, v :: vs, st2)
               else Ok (false, [], st1)
  end.

(* ------------------------------------------------------------------ *)
(* Arbitrary sequences of calls *)
Inductive rop :=
| RRead (t : ty) (v0 : val) | RText (size : N) | RBe (w : nat) | RReset | RClear
| RRewind (n : N) | RSeek (n : Z) | RMark | RResetMark
| RLoad (data : list ascii) (len : N) | RLoadAmt (data : list ascii).
Inductive wop :=
| WWrite (t : ty) (v : val) | WText (text : list ascii) (size : N) (rpad : bool) (pad : ascii)
| WReset | WClear | WMark | WResetMark.

Definition run_rop (le ei : bool) (sz : ty -> N) (o : rop) (st : bst) : outcome bst :=
  match o with
  | RRead t v0 => ' (_, _, st1) <- read le ei sz t v0 st ;; Ok st1
  | RText size => ' (_, st1) <- read_text (fun b => (true, b)) size st ;; Ok st1
  | RBe w => ' (_, st1) <- be_to_native le w (fun v => v) st ;; Ok st1
  | RReset => Ok (reset st)
  | RClear => Ok (clear st)
  | RRewind n => ' (_, st1) <- rewind n st ;; Ok st1
  | RSeek n => ' (_, st1) <- seek n st ;; Ok st1
  | RMark => Ok (mark st)
  | RResetMark => Ok (snd (reset_to_mark st))
  | RLoad d n => Ok (snd (load_stream d n st))
  | RLoadAmt d => Ok (snd (load_stream_amt d st))
  end.

Definition run_wop (le ei : bool) (sz : ty -> N) (o : wop) (st : bst) : outcome bst :=
  match o with
  | WWrite t v => ' (_, st1) <- write le ei sz t v st ;; Ok st1
  | WText text size rpad pad => ' (_, st1) <- write_text text size rpad pad st ;; Ok st1
  | WReset => Ok (reset st)
  | WClear => Ok (clear st)
  | WMark => Ok (mark st)
  | WResetMark => Ok (snd (reset_to_mark st))
  end.

Fixpoint run_all {O} (step : O -> bst -> outcome bst) (ops : list O) (st : bst) : outcome bst :=
  match ops with
  | [] => Ok st
  | o :: ops' => st1 <- step o st ;; run_all step ops' st1
  end.
