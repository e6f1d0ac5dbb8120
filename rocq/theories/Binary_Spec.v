(* Wire format of binary::writer / binary::reader and byte order, stated
   without reference to the code. *)
From Verif Require Import Base Binary_Model.
Open Scope N_scope.

(* byte number i of v, counted from the least significant *)
Definition byte_at (v : N) (i : nat) : N := v / 256 ^ N.of_nat i mod 256.
Definition le_bytes (w : nat) (v : N) : list ascii := map (fun i => ascii_of_N (byte_at v i)) (seq 0 w).
Definition be_bytes (w : nat) (v : N) : list ascii := rev (le_bytes w v).
Definition host_bytes (le : bool) (w : nat) (v : N) : list ascii := if le then le_bytes w v else be_bytes w v.

(* Which values belong to a type.  Counts must fit their field; with ei, a
   std::vector of PODs must not be empty. *)
Fixpoint has_ty (ei : bool) (t : ty) (v : val) : Prop :=
  match t, v with
  | TUnit, VUnit => True
  | TPod w, VBytes b => length b = w
  | TStr, VBytes b => N.of_nat (length b) < 2 ^ 32
  | TArr w, VArr n b => n < 2 ^ 32 /\ N.of_nat (length b) = n * N.of_nat w
  | TFix n w, VBytes b => length b = (n * w)%nat
  | TShort k, VBytes b => N.of_nat (length b) < 2 ^ (8 * N.of_nat k)
  | TVec t', VList l =>
      N.of_nat (length l) < 2 ^ 32 /\ Forall (has_ty ei t') l /\
      (ei = true -> is_pod t' = true -> l <> [])
  | TSeq t', VList l | TSet t', VList l => N.of_nat (length l) < 2 ^ 32 /\ Forall (has_ty ei t') l
  | TPair a b, VPair x y => has_ty ei a x /\ has_ty ei b y
  | _, _ => False
  end.

(* The format: fields in order; strings, arrays and containers carry an
   unsigned count (4 bytes, host order; k bytes for short strings) followed by
   the contents. *)
Fixpoint enc (le : bool) (t : ty) (v : val) : list ascii :=
  match t, v with
  | TPod _, VBytes b | TFix _ _, VBytes b => b
  | TStr, VBytes b => host_bytes le 4 (N.of_nat (length b)) ++ b
  | TArr _, VArr n b => host_bytes le 4 n ++ b
  | TShort k, VBytes b => host_bytes le k (N.of_nat (length b)) ++ b
  | TVec t', VList l | TSeq t', VList l | TSet t', VList l =>
      host_bytes le 4 (N.of_nat (length l)) ++ concat (map (enc le t') l)
  | TPair a b, VPair x y => enc le a x ++ enc le b y
  | _, _ => []
  end.

(* Containers whose elements are PODs, strings, arrays, pairs of such. *)
Fixpoint flat (t : ty) : bool :=
  match t with
  | TVec t' | TSeq t' | TSet t' => is_pod t'
  | TPair a b => flat a && flat b
  | _ => true
  end.

(* No deque, list or set inside. *)
Fixpoint no_append (t : ty) : bool :=
  match t with
  | TSeq _ | TSet _ => false
  | TVec t' => no_append t'
  | TPair a b => no_append a && no_append b
  | _ => true
  end.

(* Elements of containers contain no deque, list or set. *)
Fixpoint restorable (t : ty) : bool :=
  match t with
  | TVec t' | TSeq t' | TSet t' => no_append t' && restorable t'
  | TPair a b => restorable a && restorable b
  | _ => true
  end.

(* Bytes that must be free: the encoding, and for a container also count *
   sizeof(element), because the code checks that amount up front. *)
Fixpoint room (le : bool) (sz : ty -> N) (t : ty) (v : val) : N :=
  match t, v with
  | TVec t', VList l | TSeq t', VList l | TSet t', VList l =>
      4 + N.max (N.of_nat (length l) * sizeof sz t')
                (fold_right (fun x r => N.max (room le sz t' x) (N.of_nat (length (enc le t' x)) + r)) 0 l)
  | TPair a b, VPair x y => N.max (room le sz a x) (N.of_nat (length (enc le a x)) + room le sz b y)
  | _, _ => N.of_nat (length (enc le t v))
  end.

(* The buffer after [b] has been written at the cursor. *)
Definition after (st : bst) (b : list ascii) : bst :=
  St (firstn (cur st) (buf st) ++ b ++ skipn (cur st + length b) (buf st))
     (cur st + length b) (amt st + length b) (marks st).

(* Cursor inside the buffer, counter and pointer in step, marks too. *)
Definition wf (st : bst) : Prop :=
  cur st = amt st /\ (cur st <= length (buf st))%nat /\
  Forall (fun m => fst m = snd m /\ (snd m <= length (buf st))%nat) (marks st).

(* a sequence of fields: its bytes, and the room the code asks for *)
Definition enc_fields le (l : list (ty * val)) : list ascii := concat (map (fun f => enc le (fst f) (snd f)) l).
Definition room_fields le sz (l : list (ty * val)) : N :=
  fold_right (fun f r => N.max (room le sz (fst f) (snd f)) (N.of_nat (length (enc le (fst f) (snd f))) + r)) 0%N l.
