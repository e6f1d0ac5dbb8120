(* trie::prefix: strtk.hpp 19652-19857. *)
From Verif Require Import Base.

Section Model.
Context {K V : Type}.
(* operator== of the key element type (19711) *)
Variable keq : K -> K -> bool.

(* struct node, 19661-19755.  Pointers to nodes are addresses: positions in the
   heap below; value_ is None while it has not been given a value (19675-19678). *)
Record node := Node { key_value : K; value_holder : bool; value : option V; node_list : list nat }.

(* The nodes allocated so far; None: deleted. *)
Definition heap := list (option node).

(* *p for a node_ptr p: undefined when p was deleted or never allocated. *)
Definition deref (h : heap) (p : nat) : outcome node :=
  o <- rd h p ;; match o with Some n => Ok n | None => UB end.

(* node::get_node, 19701-19718: None is the null pointer *)
Definition get_node (h : heap) (p : nat) (k : K) : outcome (option nat) :=
  n <- deref h p ;;
  if length (node_list n) =? 0 then Ok None
  else
    loop (S (length (node_list n)))
      (fun itr =>
         if itr =? length (node_list n) then Ok (inr None)
         else
           q <- rd (node_list n) itr ;;
           m <- deref h q ;;
           if keq k (key_value m) then Ok (inr (Some q)) else Ok (inl (S itr)))
      0.

(* new node_t(key): 19675-19678 *)
Definition new_node (h : heap) (k : K) : heap * nat := (h ++ [Some (Node k false None [])], length h).

(* node::add_node, 19726-19729 *)
Definition add_node (h : heap) (p q : nat) : outcome heap :=
  n <- deref h p ;;
  wr h p (Some (Node (key_value n) (value_holder n) (value n) (node_list n ++ [q]))).

(* node::assign_value, 19720-19724 *)
Definition assign_value (h : heap) (p : nat) (v : V) : outcome heap :=
  n <- deref h p ;;
  wr h p (Some (Node (key_value n) true (Some v) (node_list n))).

(* class prefix: the heap and head_ (19856); None is the null pointer *)
Record trie := Trie { mem : heap; head : option nat }.

(* 19766-19768 *)
Definition empty_trie : trie := Trie [] None.

(* prefix::insert, 19770-19799; [key] is the range [begin,end) *)
Definition insert (t : trie) (key : list K) (v : V) : outcome trie :=
  if length key =? 0 then Ok t
  else
    k0 <- rd key 0 ;;
    let '(h, hd) := match head t with
                    | None => new_node (mem t) k0
                    | Some p => (mem t, p)
                    end in
    r <- loop (S (length key))
      (fun '(h, n, parent, itr) =>
         if itr =? length key then Ok (inr (h, parent))
         else
           k <- rd key itr ;;
           nx <- get_node h n k ;;
           ' (h, next) <- match nx with
                         | Some q => Ok (h, q)
                         | None => let '(h1, q) := new_node h k in
                                   h2 <- add_node h1 n q ;; Ok (h2, q)
                         end ;;
           Ok (inl (h, next, Some n, S itr)))
      (h, hd, @None nat, 0) ;;
    let '(h, parent) := r in
    match parent with
    | None => UB
    | Some p => h <- assign_value h p v ;; Ok (Trie h (Some hd))
    end.

(* prefix::find, 19801-19828: Some v stands for true with the value stored *)
Definition find (t : trie) (key : list K) : outcome (option V) :=
  match head t with
  | None => Ok None
  | Some hd =>
      if length key =? 0 then Ok None
      else
        r <- loop (S (length key))
          (fun '(n, parent, itr) =>
             if itr =? length key then Ok (inr (Some parent))
             else
               k <- rd key itr ;;
               nx <- get_node (mem t) n k ;;
               match nx with
               | None => Ok (inr None)
               | Some q => Ok (inl (q, n, S itr))
               end)
          (hd, hd, 0) ;;
        match r with
        | None => Ok None
        | Some parent =>
            m <- deref (mem t) parent ;;
            if negb (value_holder m) then Ok None
            else match value m with Some v => Ok (Some v) | None => UB end
        end
  end.

(* prefix::find_prefix, 19830-19847 *)
Definition find_prefix (t : trie) (key : list K) : outcome bool :=
  match head t with
  | None => Ok false
  | Some hd =>
      if length key =? 0 then Ok false
      else
        loop (S (length key))
          (fun '(n, itr) =>
             if itr =? length key then Ok (inr true)
             else
               k <- rd key itr ;;
               nx <- get_node (mem t) n k ;;
               match nx with
               | None => Ok (inr false)
               | Some q => Ok (inl (q, S itr))
               end)
          (hd, 0)
  end.

(* delete p: ~node (19686-19699) deletes the children, then the node itself is
   released.  The recursion is bounded by fuel; the call stack is not modelled. *)
Fixpoint delete (fuel : nat) (h : heap) (p : nat) : outcome heap :=
  match fuel with
  | 0 => OutOfFuel
  | S f =>
      n <- deref h p ;;
      h <- (if length (node_list n) =? 0 then Ok h
            else for_up 0 (length (node_list n))
                   (fun itr h => q <- rd (node_list n) itr ;; delete f h q) h) ;;
      wr h p None
  end.

(* ~prefix, 19849-19852: delete of the null pointer does nothing *)
Definition destroy (fuel : nat) (t : trie) : outcome heap :=
  match head t with
  | None => Ok (mem t)
  | Some p => delete fuel (mem t) p
  end.

(* A caller making insertions in order (not a function of the library). *)
Definition insert_all (t : trie) (hist : list (list K * V)) : outcome trie :=
  fold_left (fun acc '(k, v) => t <- acc ;; insert t k v) hist (Ok t).

End Model.
Arguments node : clear implicits.
Arguments heap : clear implicits.
Arguments trie : clear implicits.

(* trie::insert, find, find_prefix for std::string keys (19859-19865, 19875-19881,
   19891-19896) pass the whole string; the const char* overloads (19867-19873,
   19883-19889, 19898-19903) name member functions that do not exist and cannot be
   instantiated. *)
