(* Property C91, continued: the default constructed filter. *)
From Verif Require Import Base Binary_Model Bloom_Model BFile_Model.
Local Open Scope N_scope.

(* nothing was inserted, and it is said to contain everything *)
Theorem C91_default_refuted : forall k, inserted_count default_filter = 0 /\ tsize default_filter = 0 /\ contains default_filter k = Ok true.
Proof. intros k. repeat split. Qed.
Print Assumptions C91_default_refuted.

(* inserting keys changes the number of keys only *)
Theorem C91_default_insert : forall ks, exists f, insert_all default_filter ks = Ok f /\
  inserted_count f = N.of_nat (length ks) mod 2 ^ 32 /\ tsize f = 0 /\ bit_table f = Some [].
Proof.
  assert (G : forall ks c, c < 2 ^ 32 -> insert_all (Filter [] (Some []) 0 0 0 0 c 0 [0]) ks =
    Ok (Filter [] (Some []) 0 0 0 0 ((c + N.of_nat (length ks)) mod 2 ^ 32) 0 [0])).
  { induction ks as [|k ks IH]; intros c Hc; cbn [insert_all length].
    - rewrite N.add_0_r, N.mod_small by exact Hc. reflexivity.
    - unfold insert, table. cbn [bit_table bind insert_salts salt set_table set_count inserted_count]. unfold u32.
      unfold set_count, set_table. cbn [salt bit_table salt_count tsize raw_table_size projected_count inserted_count seed sizes].
      rewrite IH by (apply N.mod_lt; discriminate). rewrite N.add_mod_idemp_l by discriminate. do 3 f_equal. lia. }
  intros ks. eexists. split; [apply (G ks 0); reflexivity|]. auto.
Qed.
Print Assumptions C91_default_insert.

Example C91_default_example : exists f, insert_all default_filter [str "a"; str "b"] = Ok f /\ inserted_count f = 2 /\ contains f (str "c") = Ok true.
Proof. eexists. split; [reflexivity|]. split; reflexivity. Qed.
