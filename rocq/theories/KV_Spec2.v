(* Notions of the statements about key-value parsing that speak of the objects. *)
From Verif Require Import Base Parse_Model KV_Model KV_Spec.

(* the look-up tables after a sequence of registrations *)
Definition uint_registered (count : nat) (regs : list (nat * nat)) : list (option nat) :=
  fold_left (fun lut r => snd (uintkey_register lut (fst r) (snd r))) regs (repeat None count).

Definition map_registered {K} (eqb : K -> K -> bool) (regs : list (K * nat)) : list (K * nat) :=
  fold_left (fun m r => map_register eqb m (fst r) (snd r)) regs [].

(* a history of calls on util::value objects *)
Definition run_vop (w : world) (o : vop) : outcome world :=
  match o with
  | VNew a => v_new w a
  | VBind a i => v_assign w a i
  | VAssign b a => v_set w b a
  | VEnd a => v_destroy w a
  end.
Fixpoint run_vops (w : world) (os : list vop) : outcome world :=
  match os with [] => Ok w | o :: os => w <- run_vop w o ;; run_vops w os end.

