(* Ideal Bloom filters: sets of positions. *)
From Verif Require Import Base Bloom_Model.
Open Scope N_scope.

Definition key : Type := list ascii.

(* Programs that build a filter from filters of equal parameters *)
Inductive prog :=
| New
| Insert (p : prog) (k : key)
| Clear (p : prog)
| Union (p q : prog)      (* p |= q *)
| Inter (p q : prog)      (* p &= q *)
| Diff (p q : prog)       (* p ^= q *)
| Assign (p q : prog).    (* p = q *)

(* running a program on the library; f0 is the freshly constructed filter *)
Fixpoint run (f0 : filter) (p : prog) : outcome filter :=
  match p with
  | New => Ok f0
  | Insert p k => f <- run f0 p ;; insert f k
  | Clear p => f <- run f0 p ;; clear f
  | Union p q => f <- run f0 p ;; g <- run f0 q ;; combine N.lor f g
  | Inter p q => f <- run f0 p ;; g <- run f0 q ;; combine N.land f g
  | Diff p q => f <- run f0 p ;; g <- run f0 q ;; combine N.lxor f g
  | Assign p q => f <- run f0 p ;; g <- run f0 q ;; assign f g
  end.

(* running it on sets of positions, given the positions of every key *)
Fixpoint ideal (pos : key -> list N) (p : prog) (i : N) : bool :=
  match p with
  | New => false
  | Insert p k => ideal pos p i || existsb (N.eqb i) (pos k)
  | Clear p => false
  | Union p q => ideal pos p i || ideal pos q i
  | Inter p q => ideal pos p i && ideal pos q i
  | Diff p q => xorb (ideal pos p i) (ideal pos q i)
  | Assign p q => ideal pos q i
  end.

(* keys the filter has to know *)
Fixpoint must (p : prog) (k : key) : Prop :=
  match p with
  | New => False
  | Insert p k' => k = k' \/ must p k
  | Clear p => False
  | Union p q => must p k \/ must q k
  | Inter p q => must p k /\ must q k
  | Diff p q => False
  | Assign p q => must q k
  end.

(* number of insertions reported by element_count *)
Fixpoint count (p : prog) : N :=
  match p with
  | New => 0
  | Insert p k => count p + 1
  | Clear p => 0
  | Union p q | Inter p q | Diff p q => count p
  | Assign p q => count q
  end.

(* a table size the filter can work with *)
Definition good_size (m : N) : Prop := 0 < m /\ m mod 8 = 0.

(* compressible filters *)
Inductive cprog :=
| CNew
| CInsert (p : cprog) (k : key)
| CCompress (p : cprog) (in_range : bool) (target : N).

Fixpoint crun (f0 : filter) (p : cprog) : outcome filter :=
  match p with
  | CNew => Ok f0
  | CInsert p k => f <- crun f0 p ;; insert f k
  | CCompress p r t =>
      f <- crun f0 p ;;
      o <- compress r t f ;;
      Ok (match o with Some f' => f' | None => f end)
  end.

Fixpoint cmust (p : cprog) (k : key) : Prop :=
  match p with
  | CNew => False
  | CInsert p k' => k = k' \/ cmust p k
  | CCompress p _ _ => cmust p k
  end.

(* size in bits; a compression is accepted when the new size, a multiple of 8,
   is positive and smaller *)
Definition new_size (t : N) : N := 8 * (t / 8).
Definition accepted (m : N) (r : bool) (t : N) : bool := r && (0 <? new_size t) && (new_size t <? m).
Fixpoint csize (m : N) (p : cprog) : N :=
  match p with
  | CNew => m
  | CInsert p _ => csize m p
  | CCompress p r t => if accepted (csize m p) r t then new_size t else csize m p
  end.
(* every accepted compression keeps at least half *)
Fixpoint halving (m : N) (p : cprog) : Prop :=
  match p with
  | CNew => True
  | CInsert p _ => halving m p
  | CCompress p r t => halving m p /\ (accepted (csize m p) r t = true -> csize m p <= 2 * new_size t)
  end.
