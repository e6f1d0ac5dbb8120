(* token_grid joins with predicates: /repo/strtk.hpp 7111-7158 and 7205-7256.
   Text, tokens and index structure as in Grid_Model.v. *)
From Verif Require Import Base Split_Model Grid_Model.
Local Open Scope nat_scope.

(* join_row with a token predicate, 7111-7149 (7151-7158 takes the delimiter as a C string): the
   delimiter is appended before the predicate is asked; in the last row, end is the last
   token itself *)
Definition join_row_if (p : tok -> bool) (buf : list ascii) (g : grid) (i : N) (delimiter result : list ascii)
  : outcome (bool * list ascii) :=
  if (row_count g <=? i)%N then Ok (false, result)
  else
    rw <- at_ (rows g) i ;;
    let e := (snd rw + (if i <? row_count g - 1 then 1 else 0))%N in
    _ <- at_ (tokens g) (fst rw) ;; _ <- at_ (tokens g) e ;;
    ' (result, _) <- for_range (fst rw) e
      (fun k '(result, appended) =>
         t <- at_ (tokens g) k ;;
         let result := if negb (length delimiter =? 0) && appended then result ++ delimiter else result in
         if negb (fst t =? snd t) then
           if p t then Ok (result ++ sub buf t, true) else Ok (result, false)
         else Ok (result, false)) (result, false) ;;
    Ok (true, result).

(* join_column with a row predicate, 7205-7247 (7249-7256 is all_rows); pre_end_index is
   computed in unsigned int and widened *)
Definition join_column_if (p : N -> list tok -> bool) (buf : list ascii) (g : grid) (col : N) (r : N * N) (delimiter result : list ascii)
  : outcome (bool * list ascii) :=
  if (max_c g <? col)%N then Ok (false, result)
  else if row_range_invalid g r then Ok (false, result)
  else
    let pre_end_index := sub32 (snd r) 1 in
    ' (result, _) <- for_range (fst r) (snd r)
      (fun i '(result, appended) =>
         rix <- at_ (rows g) i ;;
         if (col <? token_count rix)%N then
           rw <- row g i ;; t <- row_token g rw col ;;
           let result := if negb (length delimiter =? 0) && appended && negb (pre_end_index =? i)%N then result ++ delimiter else result in
           if negb (fst t =? snd t) then
             ts <- row_tokens g rw ;;
             if p i ts then Ok (result ++ sub buf t, true) else Ok (result, false)
           else Ok (result, false)
         else Ok (result, appended)) (result, false) ;;
    Ok (true, result).
