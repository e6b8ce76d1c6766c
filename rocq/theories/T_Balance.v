(** C74: balancing deals every element to exactly one rank and changes nothing else. *)
From Verif Require Import Prelude M_Array M_Par M_Sort M_Map S_Map M_Tags M_Template M_Linpart M_Bipart M_Dist S_Dist M_Owners S_Owners M_Migrate S_Migrate M_Ghost S_Ghost M_Parting S_Parting M_Balance S_Balance P_Dist6 P_Balance P_Balance3 X_Migrate X_Ghost X_Parting X_Balance.
Local Open Scope Z_scope.

(** On 2^k ranks, from any partition: the mesh is distributed by elements, each on one rank, and is the same mesh;
    each rank has exactly the elements that bisecting the centres and masses of the partition by elements deals to it. *)
Theorem balance_redistributes : forall T inv ask (weigh : dmesh -> res (list (list T) * list (list T))) mark nranks, inverter inv -> answers nranks ask -> weighs nranks weigh -> marks_all mark ->
  forall k pm, nranks = 2 ^ Z.of_nat k -> parted nranks pm -> (pm_parting pm = None -> distributed (pm_mesh pm) OMEGA_H_ELEM_BASED 0) -> each_once (pm_mesh pm) ->
  exists pm' R, balance inv ask weigh mark nranks pm = Ok pm' /\ parted nranks pm' /\ same_mesh (pm_mesh pm) (pm_mesh pm') R /\ each_once (pm_mesh pm') /\
    (nranks <> 1 -> pm_parting pm' = Some OMEGA_H_ELEM_BASED /\ pm_layers pm' = 0 /\
    exists pm1 R1 elems coords masses coords' masses' who, set_parting inv ask nranks pm OMEGA_H_ELEM_BASED 0 = Ok pm1 /\ elems_of (pm_mesh pm1) = Ok elems /\ weigh (pm_mesh pm1) = Ok (coords, masses) /\
      recursively_bisect (Z.to_nat nranks) inv mark [] coords masses (de_ranks elems) (de_idxs elems) = Ok (coords', masses', map (map fst) who, map (map snd) who) /\ dealt (de_nents elems) who /\
      same_mesh (pm_mesh pm1) (pm_mesh pm') R1 /\ forall r q s, (exists c, R1 (dm_dim (pm_mesh pm1)) r q s c) <-> exists c, copy_of who s c r q).
Proof. exact @balance_ok. Qed.
Print Assumptions balance_redistributes.

(** The bisection underneath: every item is dealt to exactly one rank; its centre, mass and owner go with it; what is marked goes to the
    second half of the ranks, the rest to the first (and so again within each half, which is bisected in the same way). *)
Theorem bisection_deals : forall T inv (mark : list Z -> list (list T) -> list (list T) -> res (list (list Z))), inverter inv -> marks_all mark ->
  forall k fuel path coords masses ranks idxs sizes, (k <= fuel)%nat -> zlen sizes = 2 ^ Z.of_nat k -> zlen sizes <= i32_max + 1 ->
  data_per_root sizes coords 3 -> data_per_root sizes masses 1 -> data_per_root sizes ranks 1 -> data_per_root sizes idxs 1 ->
  exists coords' masses' ranks' idxs' who, recursively_bisect fuel inv mark path coords masses ranks idxs = Ok (coords', masses', ranks', idxs') /\ dealt sizes who /\
    delivered who coords coords' 3 /\ delivered who masses masses' 1 /\ delivered who ranks ranks' 1 /\ delivered who idxs idxs' 1 /\
    forall k' marks, k = S k' -> mark path coords masses = Ok marks -> by_marks (2 ^ Z.of_nat k') marks who.
Proof. exact @bisect_ok. Qed.
Print Assumptions bisection_deals.

(** The migration at the end: however the elements of a mesh distributed by elements are dealt, each rank then has exactly those dealt to it. *)
Theorem balance_follows_deal : forall inv nranks, inverter inv -> forall m elems who,
  sound nranks m /\ agrees m /\ covered m /\ answerable m -> each_once m -> distributed m OMEGA_H_ELEM_BASED 0 -> elems_of m = Ok elems -> dealt (de_nents elems) who ->
  exists m' R, migrate_to inv m elems (map (map fst) who) (map (map snd) who) = Ok m' /\ (sound nranks m' /\ agrees m' /\ covered m' /\ answerable m') /\ distributed m' OMEGA_H_ELEM_BASED 0 /\ each_once m' /\ same_mesh m m' R /\
  forall r q s, (exists c, R (dm_dim m) r q s c) <-> exists c, copy_of who s c r q.
Proof. exact migrate_to_same. Qed.
Print Assumptions balance_follows_deal.

(** That no rank has an element twice stays true in every partition. *)
Theorem set_parting_each_once : forall inv ask nranks pm p n pm', inverter inv -> answers nranks ask -> parted nranks pm -> admissible (pm_mesh pm) p n -> each_once (pm_mesh pm) ->
  set_parting inv ask nranks pm p n = Ok pm' -> each_once (pm_mesh pm').
Proof. exact once_set_parting. Qed.
Print Assumptions set_parting_each_once.

(** On a number of ranks that is not a power of two it ends the program, whatever the mesh. *)
Theorem balance_aborts : forall T inv ask (weigh : dmesh -> res (list (list T) * list (list T))) mark nranks, inverter inv -> answers nranks ask -> weighs nranks weigh -> marks_all mark ->
  forall k o pm, nranks = 2 ^ Z.of_nat k * o -> o mod 2 = 1 -> 1 < o -> parted nranks pm -> (pm_parting pm = None -> distributed (pm_mesh pm) OMEGA_H_ELEM_BASED 0) ->
  balance inv ask weigh mark nranks pm = Abort.
Proof. exact @balance_refuses. Qed.
Print Assumptions balance_aborts.
Theorem balance_any_number_refuted : ~ forall inv ask (weigh : dmesh -> res (list (list Z) * list (list Z))) mark nranks pm, inverter inv -> answers nranks ask -> weighs nranks weigh -> marks_all mark -> parted nranks pm -> pm_parting pm = Some OMEGA_H_ELEM_BASED ->
  exists pm', balance inv ask weigh mark nranks pm = Ok pm'.
Proof. exact any_number_refuted. Qed.
Print Assumptions balance_any_number_refuted.

(** ** the hypotheses can be met: six segments over four ranks, by global numbers [2 1 0] [3] [4] [5] before *)
Example balance_hyps_ex : inverter ex_by_sorting /\ answers 4 ask_bounds /\ weighs 4 ex_weigh /\ marks_all ex_mark /\ parted 4 bx_pm /\ each_once (pm_mesh bx_pm).
Proof. exact (conj sorting_inverter (conj (ask_bounds_ok 4) (conj (ex_weigh_ok 4) (conj ex_mark_ok (conj bx_parted bx_once))))). Qed.
Example balance_run_ex : (pm <- balance ex_by_sorting ask_bounds ex_weigh ex_mark 4 bx_pm ;; elems_seen (Ok (pm_mesh pm))) =
  Ok ([[2; 3; 4]; [0; 5]; []; [1]], [[0; 0; 0]; [1; 1]; []; [3]], [[0; 1; 2]; [0; 1]; []; [0]]).
Proof. exact bx_run. Qed.
Example balance_ghosted_ex : (pm <- set_parting ex_by_sorting ask_bounds 4 bx_pm OMEGA_H_GHOSTED 2 ;; pm <- balance ex_by_sorting ask_bounds ex_weigh ex_mark 4 pm ;; elems_seen (Ok (pm_mesh pm))) =
  Ok ([[0; 3; 4]; [2; 5]; []; [1]], [[0; 0; 0]; [1; 1]; []; [3]], [[0; 1; 2]; [0; 1]; []; [0]]).
Proof. exact bx_run_ghosted. Qed.
