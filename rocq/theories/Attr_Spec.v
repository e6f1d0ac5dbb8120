(* What conditions on strings and attributes should do, independent of the code. *)
From Verif Require Import Base.

(* s occurs in data *)
Definition occurs_in {A} (s data : list A) : Prop := exists a b, data = a ++ s ++ b.

(* what can happen to an attribute: an assignment, or a successful conversion into it *)
Inductive event (T : Type) := Assigned (v : T) | Parsed (v : T).
Arguments Assigned {T} v. Arguments Parsed {T} v.
Definition event_value {T} (e : event T) : T := match e with Assigned v | Parsed v => v end.

(* the value after a history: the latest one given, v0 if none *)
Definition latest {T} (v0 : T) (h : list (event T)) : T := last (map event_value h) v0.

(* the value just before the latest assignment, v0 if there was none *)
Inductive before_assignment {T} (v0 : T) : list (event T) -> T -> Prop :=
| ba_none h : (forall v, ~ In (Assigned v) h) -> before_assignment v0 h v0
| ba_some h1 v h2 : (forall w, ~ In (Assigned w) h2) ->
    before_assignment v0 (h1 ++ Assigned v :: h2) (latest v0 h1).
