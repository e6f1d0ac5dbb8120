(* Saving and loading a Bloom filter: bloom::filter::write_to_file, read_from_file and the
   default constructor, strtk.hpp 20080-20090, 20349-20434. *)
From Verif Require Import Base Binary_Model Bloom_Model IO_Model.
Local Open Scope N_scope.

(* desired_false_positive_probability_, the eight bytes of the double; it is carried next to
   the record of Bloom_Model.  0.0 has all bytes zero. *)
Definition fpp : Type := list ascii.
Definition fpp_zero : fpp := repeat "000"%char 8.

(* filter(), 20080-20090.  The null pointer bit_table_ is a table without cells: deleting it is
   allowed, every access through it is undefined. *)
Definition default_filter : filter := Filter [] (Some []) 0 0 0 0 0 0 [0].

Section Host.
Variable le : bool.   (* byte order of the host, as in Binary_Model *)
Variable ei : bool.   (* is v[0] on an empty vector undefined, as in Binary_Model *)
Definition no_class (t : ty) : N := 0. (* no class types are transferred *)

(* the arguments of the nine calls, 20372-20380; the length of the table is converted to 32 bits by
   the overload 14408-14412 *)
Definition members (f : filter) (d : fpp) (t : list N) : list (ty * val) :=
  [(TPod 4, VBytes (store le 4 (salt_count f)));
   (TPod 8, VBytes (store le 8 (tsize f)));
   (TPod 8, VBytes (store le 8 (raw_table_size f)));
   (TPod 8, VBytes (store le 8 (projected_count f)));
   (TPod 4, VBytes (store le 4 (inserted_count f)));
   (TPod 8, VBytes (store le 8 (seed f)));
   (TPod 8, VBytes d);
   (TVec (TPod 4), VList (map (fun s => VBytes (store le 4 s)) (salt f)));
   (TArr 1, VArr (Bloom_Model.u32 (raw_table_size f)) (map ascii_of_N t))].

(* 20353-20363; below 2^64 because the table itself is in memory *)
Definition buffer_size (f : filter) : N :=
  4 + 8 + 8 + 8 + 4 + 8 + 8 + salt_count f * 4 + raw_table_size f * 1 + 64.

(* write_to_file, 20349-20389 *)
Definition write_to_file (fs : fsys) (n : nat) (f : filter) (d : fpp) : outcome (bool * fsys) :=
  if 0 =? tsize f then Ok (false, fs)
  else
    let '(opened, fs) := open_out fs n in
    if negb opened then Ok (false, fs)
    else
      t <- table f ;;
      let writer := Binary_Model.clear (start (repeat "000"%char (N.to_nat (buffer_size f)))) in
      ' (result, writer) <- write_fields le ei no_class (members f d t) writer ;;
      Ok (result, if (result : bool) then IO_Model.append fs n (firstn (amt writer) (buf writer)) else fs).

(* the members after the first [length vs] reads have succeeded *)
Definition pod_at (vs : list val) (i : nat) : N :=
  match nth_error vs i with Some (VBytes b) => load le b | _ => 0 end.
Definition loaded (vs : list val) (sizes : list N) : filter :=
  Filter (match nth_error vs 7 with Some (VList l) => map (fun v => load le (vbytes v)) l | _ => [] end)
         (match nth_error vs 8 with Some (VArr _ b) => Some (map N_of_ascii b) | _ => Some [] end)
         (pod_at vs 0) (pod_at vs 1)
         (match nth_error vs 8 with Some (VArr n _) => n | _ => pod_at vs 2 end)
         (pod_at vs 3) (pod_at vs 4) (pod_at vs 5) sizes.
Definition loaded_fpp (vs : list val) : fpp :=
  match nth_error vs 6 with Some (VBytes b) => b | _ => fpp_zero end.

(* read_from_file, 20391-20434, on the object (g, d).  [compressible]: the object is a
   compressible_filter, whose size_list (20666) the function does not know.  The members are
   cleared first (20398-20410), the deletion of the old table is undefined for an uninitialised
   pointer; a failed read keeps what was read before it.  The last read goes through the 64-bit
   overload 13978-13989, which leaves raw_table_size_ as it is when it fails. *)
Definition read_from_file (compressible : bool) (fs : fsys) (n : nat) (g : filter) (d : fpp)
  : outcome (bool * filter * fpp) :=
  if negb (can_open fs n) then Ok (false, g, d)
  else
    _ <- table g ;;
    let size := file_size fs n in
    let reader := Binary_Model.clear (start (repeat "000"%char size)) in
    let '(_, reader) := load_stream (contents fs n) (N.of_nat size) reader in
    ' (result, vs, _) <- read_fields le ei no_class
                           [TPod 4; TPod 8; TPod 8; TPod 8; TPod 4; TPod 8; TPod 8; TVec (TPod 4); TArr 1] reader ;;
    let r := loaded vs (if compressible then sizes g else [pod_at vs 1]) in
    Ok (result : bool, r, loaded_fpp vs).
End Host.
