(** C73: set_parting changes how a mesh is distributed and nothing else. *)
From Verif Require Import Prelude M_Array M_Par M_Sort M_Map S_Map M_Tags M_Template M_Dist S_Dist M_Owners S_Owners M_Migrate S_Migrate M_Ghost S_Ghost M_Parting S_Parting P_Dist6 P_Parting3 X_Migrate X_Ghost X_Parting.
Local Open Scope Z_scope.

(** From any partition to any that may be asked for: afterwards the elements are where the partition has them, and every entity that was
    on some rank is still on some rank, with the same tags and the same sides in the same order, and copies of one entity remain copies of
    one entity, and of different ones of different ones. *)
Theorem set_parting_redistributes : forall inv ask nranks, inverter inv -> answers nranks ask -> forall pm p n, parted nranks pm -> admissible (pm_mesh pm) p n ->
  (pm_parting pm = None -> distributed (pm_mesh pm) p n) ->
  exists pm' R, set_parting inv ask nranks pm p n = Ok pm' /\ pm_parting pm' = Some p /\ pm_layers pm' = n /\ parted nranks pm' /\ same_mesh (pm_mesh pm) (pm_mesh pm') R.
Proof. exact set_parting_ok. Qed.
Print Assumptions set_parting_redistributes.

(** So after any number of requests. *)
Theorem set_parting_history : forall inv ask nranks, inverter inv -> answers nranks ask -> forall reqs pm old, parted nranks pm -> pm_parting pm = Some old ->
  (forall p n, In (p, n) reqs -> admissible (pm_mesh pm) p n) ->
  exists pm' R, foldM (fun pm r => set_parting inv ask nranks pm (fst r) (snd r)) reqs pm = Ok pm' /\ parted nranks pm' /\ same_mesh (pm_mesh pm) (pm_mesh pm') R.
Proof. exact set_partings_ok. Qed.
Print Assumptions set_parting_history.

(** Without a number of layers any request is met, for any kind of mesh: no layers by elements, one otherwise. *)
Theorem set_parting_default_redistributes : forall inv ask nranks, inverter inv -> answers nranks ask -> forall pm old p, parted nranks pm -> pm_parting pm = Some old ->
  exists pm' R, set_parting_default inv ask nranks pm p = Ok pm' /\ pm_parting pm' = Some p /\ pm_layers pm' = match p with OMEGA_H_ELEM_BASED => 0 | _ => 1 end /\
    parted nranks pm' /\ same_mesh (pm_mesh pm) (pm_mesh pm') R.
Proof. exact set_parting_default_ok. Qed.
Print Assumptions set_parting_default_redistributes.

(** What it refuses, with several ranks: layers where the partition has none, other than one layer by vertices, and ghosts without a layer
    (unless the mesh says it is distributed so already). *)
Theorem set_parting_refuses_layers : forall inv ask nranks, inverter inv -> answers nranks ask -> forall pm old p n, parted nranks pm -> pm_parting pm = Some old -> 1 < nranks -> ~ (old = p /\ pm_layers pm = n) ->
  match p with OMEGA_H_ELEM_BASED => n <> 0 | OMEGA_H_VERT_BASED => n <> 1 | OMEGA_H_GHOSTED => n < 1 end -> set_parting inv ask nranks pm p n = Abort.
Proof. exact set_parting_refuses. Qed.
Print Assumptions set_parting_refuses_layers.

(** Two layers of hypercubes at a time end the program: see C72. *)
Theorem set_parting_hypercubes_refuted : ~ forall inv ask nranks pm p n, inverter inv -> answers nranks ask -> parted nranks pm -> pm_parting pm <> None -> 0 < n -> p = OMEGA_H_GHOSTED -> exists pm', set_parting inv ask nranks pm p n = Ok pm'.
Proof. exact two_layers_abort. Qed.
Print Assumptions set_parting_hypercubes_refuted.

(** A mesh distributed by elements is a ghosted one without layers, but cannot be asked to be. *)
Theorem set_parting_no_layers_refuted : ~ forall inv ask nranks pm, inverter inv -> answers nranks ask -> parted nranks pm -> exists pm', set_parting inv ask nranks pm OMEGA_H_GHOSTED 0 = Ok pm'.
Proof. exact no_layers_abort. Qed.
Print Assumptions set_parting_no_layers_refuted.

(** ** the hypotheses can be met: seven segments over three ranks, led through six partitions; the global numbers of the segments of each rank *)
Example parting_hyps_ex : inverter ex_by_sorting /\ answers 3 ask_bounds /\ parted 3 px_mesh /\ forall p n, In (p, n) px_requests -> admissible (pm_mesh px_mesh) p n.
Proof. exact (conj sorting_inverter (conj (ask_bounds_ok 3) (conj px_parted px_admissible))). Qed.
Example parting_run_ex : px_history [(OMEGA_H_GHOSTED, 1); (OMEGA_H_GHOSTED, 3); (OMEGA_H_VERT_BASED, 1); (OMEGA_H_GHOSTED, 2); (OMEGA_H_GHOSTED, 1); (OMEGA_H_ELEM_BASED, 0)] px_mesh =
  [Ok [[0; 1; 2; 3]; [2; 3; 4]; [3; 4; 5; 6]];
   Ok [[0; 1; 2; 3; 4; 5]; [0; 1; 2; 3; 4; 5; 6]; [1; 2; 3; 4; 5; 6]];
   Ok [[0; 1; 2; 3]; [3; 4]; [4; 5; 6]];
   Ok [[0; 1; 2; 3; 4]; [1; 2; 3; 4; 5; 6]; [3; 4; 5; 6]];
   Ok [[0; 1; 2; 3]; [2; 3; 4; 5]; [4; 5; 6]];
   Ok [[0; 1; 2]; [3; 4]; [5; 6]]].
Proof. exact px_run. Qed.
Example parting_quads_ex : parted 2 pq_mesh.
Proof. exact pq_parted. Qed.
