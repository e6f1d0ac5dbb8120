(* What a saved filter is: the file format, and which filters fit it. *)
From Verif Require Import Base Binary_Model Binary_Spec Bloom_Model.
Local Open Scope N_scope.

(* nine fields in order; integers in the byte order of the host *)
Definition file_image (le : bool) (f : filter) (d : list ascii) (t : list N) : list ascii :=
  host_bytes le 4 (salt_count f) ++ host_bytes le 8 (tsize f) ++ host_bytes le 8 (raw_table_size f) ++
  host_bytes le 8 (projected_count f) ++ host_bytes le 4 (inserted_count f) ++ host_bytes le 8 (seed f) ++
  d ++
  host_bytes le 4 (N.of_nat (length (salt f))) ++ concat (map (host_bytes le 4) (salt f)) ++
  host_bytes le 4 (raw_table_size f) ++ map ascii_of_N t.

(* members within their C++ types *)
Record typed (f : filter) (d : list ascii) : Prop := Typed {
  ty_count : salt_count f < 2 ^ 32;
  ty_size : tsize f < 2 ^ 64;
  ty_raw : raw_table_size f < 2 ^ 64;
  ty_projected : projected_count f < 2 ^ 64;
  ty_inserted : inserted_count f < 2 ^ 32;
  ty_seed : seed f < 2 ^ 64;
  ty_fpp : length d = 8%nat;
  ty_salt : Forall (fun s => s < 2 ^ 32) (salt f) }.

(* a filter in use: a table of raw_table_size_ bytes, as many salts as counted, at least one *)
Record in_use (f : filter) (t : list N) : Prop := InUse {
  iu_table : bit_table f = Some t;
  iu_length : N.of_nat (length t) = raw_table_size f;
  iu_bytes : Forall (fun c => c < 256) t;
  iu_salts : N.of_nat (length (salt f)) = salt_count f;
  iu_some : 0 < salt_count f;
  iu_size : 0 < tsize f }.
