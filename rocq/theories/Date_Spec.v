(* Points in time as text, independent of the code. *)
From Verif Require Import Base Num_Spec Parse_Spec Date_Model.
Local Open Scope nat_scope.

Definition parts (dt : datetime) : list Z := [year dt; month dt; day dt; hour dt; minute dt; second dt; msecond dt].
(* a number with leading zeros up to width w *)
Definition padded (w : nat) (x : list ascii) (v : Z) : Prop := exists c, canonical c v /\ x = repeat "0"%char (w - length c) ++ c.
(* yyyy-mm-dd hh:mm:ss.mmm *)
Definition timestamp (x : list ascii) (dt : datetime) : Prop :=
  exists y mo d h mi s ms, padded 0 y (year dt) /\ padded 2 mo (month dt) /\ padded 2 d (day dt) /\ padded 2 h (hour dt) /\
    padded 2 mi (minute dt) /\ padded 2 s (second dt) /\ padded 3 ms (msecond dt) /\
    x = y ++ str "-" ++ mo ++ str "-" ++ d ++ str " " ++ h ++ str ":" ++ mi ++ str ":" ++ s ++ str "." ++ ms.
(* unsigned int has 32 bits *)
Definition representable (dt : datetime) : Prop := Forall (fun v => (0 <= v <= 4294967295)%Z) (parts dt).
(* what the converter of the example accepts: seven numbers or more between any of the four delimiters *)
Definition accepted (x : list ascii) (dt : datetime) : Prop :=
  exists texts more, compressed_tokens (str "-:. ") x (texts ++ more) /\ Forall2 (fun t v => unsigned_text t v /\ (v <= 4294967295)%Z) texts (parts dt).
