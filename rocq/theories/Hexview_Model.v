(* The hex viewer: main of strtk_hexview.cpp.  Standard input is the list of characters not
   read yet, standard output the list of characters written. *)
From Verif Require Import Base Codec_Tables Codec_Model.
Local Open Scope nat_scope.

(* std::cout: characters written so far and the fill character (a space until set);
   std::hex and std::uppercase only matter for the address, which is always written with them *)
Record cout := Cout { written : list ascii; fill : ascii }.
Definition put (t : list ascii) (o : cout) : cout := Cout (written o ++ t) (fill o).
Definition setfill (c : ascii) (o : cout) : cout := Cout (written o) c.

(* upper-case hexadecimal notation as written by operator<<: the digits of n in front of
   the digits already there; fuel: more than the number of digits *)
Fixpoint hex_digits (fuel : nat) (n : N) (acc : list ascii) : list ascii :=
  match fuel with
  | 0 => acc
  | S fuel =>
      let d := (n mod 16)%N in
      let acc := ascii_of_N (if (d <? 10)%N then 48 + d else 55 + d)%N :: acc in
      if (n <? 16)%N then acc else hex_digits fuel (n / 16)%N acc
  end.
(* << std::setw(10) << current_address, strtk_hexview.cpp 82-82 and strtk_hexview.cpp 101-101; std::size_t has
   64 bits and so at most 16 digits *)
Definition put_address (n : N) (o : cout) : cout :=
  let d := hex_digits 16 n [] in
  put (repeat (fill o) (10 - length d) ++ d) o.

(* std::cin.read(buffer,n): the characters taken, the buffer, what is left *)
Definition read (n : nat) (input buffer : list ascii) : list ascii * list ascii * list ascii :=
  let got := firstn n input in (got, got ++ skipn (length got) buffer, skipn n input).

(* main, strtk_hexview.cpp 60-114.  A read that does not get all it wants sets eof.
   buffer and hex_buffer start with any contents. *)
Definition data_width : nat := 16.
Definition hexview_step (st : list ascii * list ascii * list ascii * N * cout)
  : outcome ((list ascii * list ascii * list ascii * N * cout) + list ascii) :=
  let '(input, buffer, hex_buffer, current_address, o) := st in
  let '(got, buffer, rest) := read data_width input buffer in
  if length got =? data_width then
    hex_buffer <- convert_bin_to_hex (firstn data_width buffer) hex_buffer ;;
    let o := put [" "%char] (put_address current_address (setfill "0" o)) in
    let o := put (firstn (2 * data_width) hex_buffer) o in
    let o := put [" "%char] o in
    view <- convert_to_printable_chars (firstn data_width buffer) ;;
    let buffer := view ++ skipn data_width buffer in
    let o := put (firstn data_width buffer) o in
    let o := put ["010"%char] o in
    Ok (inl (rest, buffer, hex_buffer, ((current_address + N.of_nat data_width) mod 2 ^ 64)%N, o))
  else
    let read_in_width := length got in
    if negb (0 =? read_in_width) then
      hex_buffer <- convert_bin_to_hex (firstn read_in_width buffer) hex_buffer ;;
      let o := put [" "%char] (put_address current_address o) in
      let o := put (firstn (2 * read_in_width) hex_buffer) o in
      let o := put (repeat " "%char (2 * (16 - read_in_width) + 1)) o in
      view <- convert_to_printable_chars (firstn read_in_width buffer) ;;
      let buffer := view ++ skipn read_in_width buffer in
      let o := put (firstn read_in_width buffer) o in
      Ok (inr (written (put ["010"%char] o)))
    else Ok (inr (written o)).
Definition hexview (input buffer hex_buffer : list ascii) : outcome (list ascii) :=
  loop (S (length input)) hexview_step (input, buffer, hex_buffer, 0%N, Cout [] " ").
