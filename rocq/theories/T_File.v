(** C28 and C29: binary files are read back as written; what becomes of files cut short. *)
From Verif Require Import Prelude M_Template M_Adj M_Parents M_Tags M_File S_File P_File5 X_File.
Local Open Scope Z_scope.

(** A value written on one machine is read back on any other, and the next record is where it was. *)
Theorem value_round_trip : forall w r t v rest, in_range t v ->
  read_value r t (needs_swapping r) (mk_istream (write_value w t v (needs_swapping w) ++ rest) true) = Ok (Some v, mk_istream rest true).
Proof. exact value_back. Qed.
Print Assumptions value_round_trip.
Example value_round_trip_met : in_range I32 (-2) /\ write_value x_big I32 (-2) (needs_swapping x_big) = [254; 255; 255; 255].
Proof. split; [cbn; lia|reflexivity]. Qed.

Theorem array_round_trip : forall z w r t a, zlib_works z -> array_of t a -> (has_zlib w = true -> has_zlib r = true) ->
  exists b, write_array z w t a (has_zlib w) (needs_swapping w) = Ok b /\
    forall h rest, read_array z h r t (has_zlib w) (needs_swapping r) (mk_istream (b ++ rest) true) = Ok (a, mk_istream rest true).
Proof. exact array_back. Qed.
Print Assumptions array_round_trip.
Example array_round_trip_met : zlib_works x_zlib /\ array_of I64 [1099511627776; -7] /\ (has_zlib x_little = true -> has_zlib x_packed = true).
Proof. split; [exact x_zlib_works|]. split; [arr|reflexivity]. Qed.

Theorem string_round_trip : forall w r n rest, name_ok n ->
  read_string r (needs_swapping r) (mk_istream (write_string w n (needs_swapping w) ++ rest) true) = Ok (n, mk_istream rest true).
Proof. exact string_back. Qed.
Print Assumptions string_round_trip.
Example string_round_trip_met : name_ok [115; 105; 122; 101].
Proof. split; [vm_compute; discriminate|]. repeat constructor; unfold byte; lia. Qed.

(** Meshes: whatever the byte orders and the compression, the same rank of as many ranks reads back the mesh,
    but for the differences [as_read] lists, and stops right behind it. *)
Theorem mesh_round_trip : forall z w r m, zlib_works z -> storable m -> (has_zlib w = true -> has_zlib r = true) ->
  exists b, write_mesh z w m = Ok b /\
    forall h rest, read_mesh z h r (new_omesh (o_comm_size m) (o_comm_rank m)) latest_version (mk_istream (b ++ rest) true) = Ok (as_read m, mk_istream rest true).
Proof. exact mesh_back. Qed.
Print Assumptions mesh_round_trip.
Example mesh_round_trip_met : storable x_mesh /\ as_read x_mesh <> x_mesh /\ o_t (as_read x_mesh) = o_t x_mesh /\ o_down (as_read x_mesh) = o_down x_mesh /\ o_owners (as_read x_mesh) = o_owners x_mesh.
Proof. split; [exact x_mesh_storable|]. split; [discriminate|]. repeat split. Qed.

(** Writing what was read and reading it again loses nothing more. *)
Theorem mesh_second_round_trip : forall z w r w' r' m, zlib_works z -> storable m -> (has_zlib w = true -> has_zlib r = true) -> (has_zlib w' = true -> has_zlib r' = true) ->
  exists b b', write_mesh z w m = Ok b /\ write_mesh z w' (as_read m) = Ok b' /\
    forall h rest, read_mesh z h r (new_omesh (o_comm_size m) (o_comm_rank m)) latest_version (mk_istream (b ++ rest) true) = Ok (as_read m, mk_istream rest true) /\
                   read_mesh z h r' (new_omesh (o_comm_size m) (o_comm_rank m)) latest_version (mk_istream (b' ++ rest) true) = Ok (as_read m, mk_istream rest true).
Proof. exact mesh_again. Qed.
Print Assumptions mesh_second_round_trip.

(** The file is the same whatever the byte order of the machine. *)
Theorem mesh_file_portable : forall z w w' m, zlib_works z -> storable m -> has_zlib w = has_zlib w' -> write_mesh z w m = write_mesh z w' m.
Proof. exact mesh_same_bytes. Qed.
Print Assumptions mesh_file_portable.
Example mesh_file_portable_met : has_zlib x_little = has_zlib x_big /\ x_little <> x_big.
Proof. split; [reflexivity|discriminate]. Qed.

(** What cannot be read is refused: a compressed file without zlib, a file of another rank or number of ranks. *)
Theorem compressed_refused_without_zlib : forall z h w r m b mesh rest, zlib_works z -> storable m -> has_zlib w = true -> has_zlib r = false -> write_mesh z w m = Ok b ->
  read_mesh z h r mesh latest_version (mk_istream (b ++ rest) true) = Abort.
Proof. exact mesh_no_zlib. Qed.
Print Assumptions compressed_refused_without_zlib.
Theorem other_rank_refused : forall z h w r m b size rank rest, zlib_works z -> storable m -> (has_zlib w = true -> has_zlib r = true) -> write_mesh z w m = Ok b ->
  size <> o_comm_size m \/ rank <> o_comm_rank m ->
  read_mesh z h r (new_omesh size rank) latest_version (mk_istream (b ++ rest) true) = Abort.
Proof. exact mesh_wrong_comm. Qed.
Print Assumptions other_rank_refused.

(** C29.  A file cut short is not reported.  Without compression reading goes on with uninitialised variables
    wherever the cut is, except that a cut within the very last array, the codes of the parents of the elements, goes
    unnoticed: a mesh comes back with whatever memory held in place of the missing codes. *)
Theorem truncated_mesh_plain : forall z h w r m b p, zlib_works z -> storable m -> has_zlib w = false -> write_mesh z w m = Ok b -> cut_short p b ->
  let o := read_mesh z h r (new_omesh (o_comm_size m) (o_comm_rank m)) latest_version (mk_istream p true) in
  if some_parents m && (zlen b - zlen p <=? zlen (snd (last_parents m)))
  then exists c, zlen c = zlen (snd (last_parents m)) /\ o = Ok (with_last_codes m c, mk_istream [] false)
  else o = UB.
Proof. exact mesh_cut_plain. Qed.
Print Assumptions truncated_mesh_plain.

(** With compression the program may also stop with a message, when zlib rejects what was in memory. *)
Theorem truncated_mesh : forall z h w r m b p, zlib_works z -> storable m -> (has_zlib w = true -> has_zlib r = true) -> write_mesh z w m = Ok b -> cut_short p b ->
  let o := read_mesh z h r (new_omesh (o_comm_size m) (o_comm_rank m)) latest_version (mk_istream p true) in
  o = UB \/ (has_zlib w = true /\ o = Abort) \/
  (some_parents m = true /\ exists c, zlen c = zlen (snd (last_parents m)) /\ o = Ok (with_last_codes m c, mk_istream [] false)).
Proof. exact mesh_cut. Qed.
Print Assumptions truncated_mesh.
Example truncated_mesh_met : write_mesh x_zlib x_little x_mesh = Ok x_file /\ cut_short x_cut x_file.
Proof. split; [vm_compute; reflexivity|exact x_cut_short]. Qed.

(** So it is false that a file cut short is never accepted. *)
Theorem truncated_mesh_accepted_refuted : exists m b p h m' s, storable m /\ write_mesh x_zlib x_little m = Ok b /\ cut_short p b /\ m' <> as_read m /\
  read_mesh x_zlib h x_little (new_omesh (o_comm_size m) (o_comm_rank m)) latest_version (mk_istream p true) = Ok (m', s).
Proof. exact x_accepted. Qed.
Print Assumptions truncated_mesh_accepted_refuted.
