(* string_condition (strtk.hpp:19516-19650), util::scoped_restore (20805-20837),
   util::attribute (20839-20938, 21120-21138) and util::semantic_action_impl
   (20956-21094, 21145-21149).

   Simplifications.
   - An object is a number; a store maps the living objects to their contents.
   - A pointer of an object into its own string or buffer is the number of the
     object whose string or buffer it points into. *)
From Verif Require Import Base Edit_Model Match_Model Attr_Spec.
Local Open Scope nat_scope.

(* string_condition::condition_type, strtk.hpp:19591-19600 *)
Inductive condition := c_equal | c_notequal | c_like | c_begins_with | c_ends_with | c_within | c_notwithin.

(* The seven condition methods, strtk.hpp:19522-19585, for the string s and the
   range [data], which [extra] follows in memory. *)
Definition condition_method (c : condition) (s data extra : list ascii) : outcome bool :=
  match c with
  | c_equal => if length s =? length data then std_equal_at Ascii.eqb s data 0 else Ok false
  | c_notequal => if length s =? length data then b <- std_equal_at Ascii.eqb s data 0 ;; Ok (negb b) else Ok true
  | c_like => match_impl Ascii.eqb Ascii.eqb "*"%char "?"%char s (data ++ extra) (length data)
  | c_begins_with => if length s =? length data then begins_with Ascii.eqb s data else Ok false
  | c_ends_with => if length s =? length data then ends_with Ascii.eqb s data else Ok false
  | c_within => if length s <=? length data then Ok (negb (length data =? std_search Ascii.eqb data s 0)) else Ok false
  | c_notwithin => if length s <=? length data then Ok (length data =? std_search Ascii.eqb data s 0) else Ok true
  end.

(* operator()(std::string), strtk.hpp:19634-19641 *)
Definition condition_string (c : condition) (s str_ : list ascii) : outcome bool := condition_method c s str_ [zero].

(* A string_condition as an object: its string, and the object whose string
   s_begin and s_end point into. *)
Record cond_obj := CondObj { co_type : condition; co_s : list ascii; co_ptr : nat }.
Definition cond_store := nat -> option cond_obj.
Definition cs_set (st : cond_store) (n : nat) (o : option cond_obj) : cond_store := fun m => if m =? n then o else st m.
(* constructor, strtk.hpp:19602-19608 *)
Definition cond_new (st : cond_store) (n : nat) (c : condition) (s : list ascii) : cond_store := cs_set st n (Some (CondObj c s n)).
(* the implicit copy constructor: s is copied, so are the two pointers *)
Definition cond_copy (st : cond_store) (from to : nat) : outcome cond_store :=
  match st from with Some o => Ok (cs_set st to (Some (CondObj (co_type o) (co_s o) (co_ptr o)))) | None => UB end.
Definition cond_destroy (st : cond_store) (n : nat) : cond_store := cs_set st n None.
(* operator(), strtk.hpp:19628-19632: the characters compared are those the
   pointers point to *)
Definition cond_call (st : cond_store) (n : nat) (data extra : list ascii) : outcome bool :=
  match st n with
  | None => UB
  | Some o => match st (co_ptr o) with
              | None => UB
              | Some o' => condition_method (co_type o) (co_s o') data extra
              end
  end.

(* ------------------------------------------------------------------ *)
Section Attribute.
Context {T : Type}.
Variable neqb : T -> T -> bool.   (* operator!= of T *)
Variable eqb : T -> T -> bool.    (* operator== of T *)
(* the value a T has after default initialisation: None for int, double, ... *)
Variable dflt : option T.

Record attr := Attr { t_ : option T; prev_t_ : option T; initialised_ : bool }.

Definition use (v : option T) : outcome T := match v with Some x => Ok x | None => UB end.

(* attribute(), strtk.hpp:20844-20846 *)
Definition attr_default : attr := Attr dflt dflt false.
(* attribute(const T&), 20848-20852, with assign, 20929-20933 *)
Definition attr_of (t : T) : attr := Attr (Some t) (Some t) true.
(* operator=(const T&), 20854-20859 *)
Definition attr_assign (a : attr) (t : T) : outcome attr :=
  prev <- use (t_ a) ;; Ok (Attr (Some t) (Some prev) true).
(* changed(), 20902-20905 *)
Definition attr_changed (a : attr) : outcome bool :=
  if initialised_ a then x <- use (t_ a) ;; p <- use (prev_t_ a) ;; Ok (neqb x p) else Ok false.
(* value(), previous(), 20907-20925 *)
Definition attr_value (a : attr) : outcome T := use (t_ a).
Definition attr_previous (a : attr) : outcome T := use (prev_t_ a).
(* operator==(const T&), 20861-20864 *)
Definition attr_eq (a : attr) (t : T) : outcome bool :=
  if initialised_ a then x <- use (t_ a) ;; Ok (eqb x t) else Ok false.
(* string_to_type_converter_impl for attributes, 21120-21130: the converter of T
   works on value() *)
Definition attr_parse (conv : list ascii -> option T -> outcome (bool * option T)) (s : list ascii) (a : attr) : outcome (bool * attr) :=
  ' (b, t) <- conv s (t_ a) ;;
  Ok (b : bool, Attr t (prev_t_ a) (b || initialised_ a)).
(* type_to_string_converter_impl for attributes, 21132-21138 *)
Definition attr_to_string (show : T -> option (list ascii)) (a : attr) (result : list ascii) : outcome (bool * list ascii) :=
  if negb (initialised_ a) then Ok (false, result)
  else x <- use (t_ a) ;; Ok (match show x with Some r => (true, r) | None => (false, result) end).
End Attribute.
Arguments attr : clear implicits.

(* What can happen to an attribute, one after the other: operator=, or a
   conversion that succeeds. *)
Section Events.
Context {T : Type}.
(* a successful conversion to v *)
Definition conv_to (v : T) : list ascii -> option T -> outcome (bool * option T) := fun _ _ => Ok (true, Some v).

Definition apply_event (a : attr T) (e : event T) : outcome (attr T) :=
  match e with
  | Assigned v => attr_assign a v
  | Parsed v => ' (_, a) <- attr_parse (conv_to v) [] a ;; Ok a
  end.
Fixpoint apply_events (a : attr T) (h : list (event T)) : outcome (attr T) :=
  match h with
  | [] => Ok a
  | e :: h => a <- apply_event a e ;; apply_events a h
  end.
End Events.

(* scoped_restore, strtk.hpp:20805-20837: programs on one variable.  Scope b p is
   { scoped_restore<T> sr(t,b); p }, SetRestore assigns to sr.restore() of the
   innermost scope. *)
Inductive prog (T : Type) :=
| Assign (v : T)
| Apply (f : T -> T)
| SetRestore (b : bool)
| Seq (p q : prog T)
| Scope (b : bool) (p : prog T).
Arguments Assign {T} v. Arguments Apply {T} f. Arguments SetRestore {T} b. Arguments Seq {T} p q. Arguments Scope {T} b p.

(* value of the variable and of restore_ of the innermost scope *)
Fixpoint run_prog {T} (p : prog T) (st : T * bool) : T * bool :=
  match p with
  | Assign v => (v, snd st)
  | Apply f => (f (fst st), snd st)
  | SetRestore b => (fst st, b)
  | Seq p q => run_prog q (run_prog p st)
  | Scope b p =>
      let copy_ := fst st in
      let '(t, restore_) := run_prog p (fst st, b) in
      ((if restore_ then copy_ else t), snd st)
  end.

(* the restore flag of the scope p is in is left alone by p *)
Fixpoint no_set {T} (p : prog T) : Prop :=
  match p with
  | SetRestore _ => False
  | Seq p q => no_set p /\ no_set q
  | _ => True
  end.

(* ------------------------------------------------------------------ *)
(* semantic_action_impl: the buffer holds a function_holder (the address of a
   function object) or nothing; function_holder_ is null or points into the
   buffer of an object. *)
Record sa_obj := SA { sa_buffer : option nat; sa_holder : option nat }.
Definition sa_store := nat -> option sa_obj.
Definition sa_set (st : sa_store) (n : nat) (o : option sa_obj) : sa_store := fun m => if m =? n then o else st m.
(* constructors, strtk.hpp:21004-21015; assign, 21049-21054, for a function
   holder that fits the buffer (it is a vtable pointer and a pointer: 16 bytes) *)
Definition sa_default (st : sa_store) (n : nat) : sa_store := sa_set st n (Some (SA None None)).
Definition sa_new (st : sa_store) (n f : nat) : sa_store := sa_set st n (Some (SA (Some f) (Some n))).
(* implicit copy constructor *)
Definition sa_copy (st : sa_store) (from to : nat) : outcome sa_store :=
  match st from with Some o => Ok (sa_set st to (Some (SA (sa_buffer o) (sa_holder o)))) | None => UB end.
Definition sa_destroy (st : sa_store) (n : nat) : sa_store := sa_set st n None.
(* operator()(begin,end), strtk.hpp:21029-21036, and the converter 21145-21149;
   [call f] calls the function object f, None if it no longer lives *)
Definition sa_call (call : nat -> option bool) (st : sa_store) (n : nat) : outcome bool :=
  match st n with
  | None => UB
  | Some o =>
      match sa_holder o with
      | None => Ok false
      | Some k =>
          match st k with
          | Some (SA (Some f) _) => match call f with Some b => Ok b | None => UB end
          | _ => UB
          end
      end
  end.
(* operator==, strtk.hpp:21022-21027 *)
Definition sa_eq (a b : sa_obj) : bool :=
  match sa_holder a, sa_holder b with Some x, Some y => x =? y | _, _ => false end.
