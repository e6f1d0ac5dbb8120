(* How C++ types are written, independent of the library: only the syntax trees and the names of
   the registered scalars come from the model. *)
From Verif Require Import Base Num_Spec Tname_Model.

(* the text s stands for the type t; sizes of arrays in canonical decimal notation *)
Inductive written : type -> list ascii -> Prop :=
| w_scalar s : written (Scalar s) (registered s)
| w_pair a b x y : written a x -> written b y -> written (Pair a b) (str "std::pair<" ++ x ++ str "," ++ y ++ str ">")
| w_array t n x d : written t x -> canonical d (Z.of_nat n) -> written (Array t n) (x ++ str "[" ++ d ++ str "]")
| w_vector t x : written t x -> written (Container Vector t) (str "std::vector<" ++ x ++ str ">")
| w_deque t x : written t x -> written (Container Deque t) (str "std::deque<" ++ x ++ str ">")
| w_list t x : written t x -> written (Container List t) (str "std::list<" ++ x ++ str ">")
| w_set t x : written t x -> written (Container Set_ t) (str "std::set<" ++ x ++ str ">")
| w_multiset t x : written t x -> written (Container Multiset t) (str "std::multiset<" ++ x ++ str ">").

(* scalars, arrays of scalars, pairs of such types, and containers of scalars *)
Inductive flat : type -> Prop :=
| f_scalar s : flat (Scalar s)
| f_array s n : flat (Array (Scalar s) n)
| f_pair a b : flat a -> flat b -> flat (Pair a b).
Definition named (t : type) : Prop := flat t \/ exists k s, t = Container k (Scalar s).

(* sizes fit in std::size_t *)
Fixpoint sized (t : type) : Prop :=
  match t with
  | Scalar _ | Other _ => True
  | Pair a b => sized a /\ sized b
  | Array t n => (Z.of_nat n < 2 ^ 64)%Z /\ sized t
  | Container _ t => sized t
  end.

(* the values of the types with a length *)
Definition in_type (s : scalar) (v : Z) : Prop :=
  match s with
  | Short => - 2 ^ 15 <= v < 2 ^ 15 | UShort => 0 <= v < 2 ^ 16
  | Int => - 2 ^ 31 <= v < 2 ^ 31 | UInt => 0 <= v < 2 ^ 32
  | Long | LLong => - 2 ^ 63 <= v < 2 ^ 63 | ULong | ULLong => 0 <= v < 2 ^ 64
  | _ => False
  end%Z.
