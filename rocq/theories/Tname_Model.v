(* type_name and type_length, strtk.hpp 18029-18157. *)
From Verif Require Import Base Num_Model.

(* the types with a registered name *)
Inductive scalar := SChar | UChar | Short | Int | Long | LLong | UShort | UInt | ULong | ULLong | Double | Float | LDouble | String.
(* the containers with a name *)
Inductive kind := Vector | Deque | List | Set_ | Multiset.
(* C++ types: the others (char, bool, the classes of a program outside namespace strtk, ...)
   carry a number that tells them apart *)
Inductive type := Scalar (s : scalar) | Other (n : nat) | Pair (a b : type) | Array (t : type) (n : nat) | Container (k : kind) (t : type).

(* strtk_register_type_name, 18036-18052 *)
Definition registered (s : scalar) : list ascii :=
  match s with
  | SChar => str "signed char" | UChar => str "unsigned char" | Short => str "short" | Int => str "int" | Long => str "long"
  | LLong => str "long long" | UShort => str "unsigned short" | UInt => str "unsigned int" | ULong => str "unsigned long"
  | ULLong => str "unsigned long long int" | Double => str "double" | Float => str "float" | LDouble => str "long double"
  | String => str "std::string"
  end.
(* details::type_name<T>(), 18029-18034 and the specialisations *)
Definition type_name_0 (t : type) : list ascii := match t with Scalar s => registered s | _ => str "Unknown" end.
(* the calls type_name(p.first) and type_name(p.second) in 18114-18123: the overloads for values
   (18099-18104), arrays (18106-18112) and pairs are declared at this place, those for containers
   are not (and are not found by argument-dependent lookup: the argument is in std) *)
Fixpoint type_name_pair (t : type) : outcome (list ascii) :=
  match t with
  | Pair a b =>
    x <- type_name_pair a ;;
    y <- type_name_pair b ;;
    Ok (str "std::pair<" ++ x ++ str "," ++ y ++ str ">")
  | Array t n => size <- format_unsigned (Z.of_nat n) ;; Ok (type_name_0 t ++ str "[" ++ size ++ str "]")
  | _ => Ok (type_name_0 t)
  end.
(* the first parameter of the macros in 18141-18145 *)
Definition container (k : kind) : list ascii :=
  match k with
  | Vector => str "std::vector" | Deque => str "std::deque" | List => str "std::list" | Set_ => str "std::set" | Multiset => str "std::multiset"
  end.
(* strtk::type_name called from a program, 18099-18145 *)
Definition type_name (t : type) : outcome (list ascii) :=
  match t with Container k t => Ok (container k ++ str "<" ++ type_name_0 t ++ str ">") | _ => type_name_pair t end.

(* numeric<T>::length, 16870-16952; the other scalars have none: type_length does not compile *)
Definition type_length (s : scalar) : option nat :=
  match s with
  | Short | UShort => Some 5 | Int | UInt | Long | ULong => Some 10 | LLong => Some 19 | ULLong => Some 20 | _ => None
  end%nat.
(* type_to_string for the types with a length; unsigned (17876-17915) and signed (17934-17985) *)
Definition to_string (s : scalar) (v : Z) : outcome (list ascii) :=
  match s with
  | Short => format_signed t_short v | Int => format_signed t_int v | Long => format_signed t_long v | LLong => format_signed t_llong v
  | _ => format_unsigned v
  end.
