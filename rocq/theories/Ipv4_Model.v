(* The IPv4 parser of strtk_ipv4_parser.cpp.  main, 94-126, prints and is not modelled. *)
From Verif Require Import Base Split_Model Num_Model.
Local Open Scope nat_scope.

(* ipv4_parser::process_token, strtk_ipv4_parser.cpp 66-75; None: false *)
Definition process_token (x : list ascii) : outcome (option ascii) :=
  o <- numeric_convert t_uint (length x) x true ;;
  match o with
  | None => Ok None
  | Some v => if (255 <? v)%Z then Ok None else Ok (Some (ascii_of_N (Z.to_N v)))
  end.

(* operator()(data,octet), strtk_ipv4_parser.cpp 44-58, for the octets with index at
   least i; token: the array filled by split_n *)
Fixpoint process_tokens (data : list ascii) (token : list (nat * nat)) (i : nat) (n : nat) (octet : list ascii)
  : outcome (bool * list ascii) :=
  match n with
  | 0 => Ok (true, octet)
  | S n =>
      r <- rd token i ;;
      o <- process_token (sub data r) ;;
      match o with
      | None => Ok (false, octet)
      | Some c => octet <- wr octet i c ;; process_tokens data token (S i) n octet
      end
  end.
Definition parse_octets (data octet : list ascii) : outcome (bool * list ascii) :=
  ' (token, count) <- split_n (single_delimiter_predicate ".") data 4 0 ;;
  if negb (count =? 4) then Ok (false, octet) else process_tokens data token 0 4 octet.

(* operator()(data,ip), strtk_ipv4_parser.cpp 60-64: the four bytes of ip *)
Definition parse_ip (data ip : list ascii) : outcome (bool * list ascii) :=
  parse_octets data (repeat zero (length ip)).
