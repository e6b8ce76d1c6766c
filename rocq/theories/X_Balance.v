(** Example data for balancing: a chain of segments over four ranks. *)
From Coq Require Import String.
From Verif Require Import Prelude M_Array M_Par M_Scan M_Sort M_Map S_Map M_Tags M_Template M_Linpart M_Bipart M_Dist S_Dist M_Owners S_Owners M_Migrate S_Migrate M_Ghost S_Ghost M_Parting S_Parting M_Balance S_Balance.
From Verif Require Import P_Map P_Dist P_Dist2 P_Dist3 P_Dist6 P_Migrate4 P_Ghost4 P_Parting3 X_Migrate X_Ghost X_Parting.
Local Open Scope Z_scope.

(** centres and masses, as whole numbers: the same for all elements *)
Definition ex_weigh (m : dmesh) : res (list (list Z) * list (list Z)) :=
  elems <- elems_of m ;; Ok (map (fun n => repeat 0 (Z.to_nat (n * 3))) (de_nents elems), map (fun n => repeat 1 (Z.to_nat n)) (de_nents elems)).
Lemma ex_weigh_ok nranks : weighs nranks ex_weigh.
Proof.
  intros m elems Sm He. pose proof (s_level _ _ Sm _ _ He) as Se. unfold ex_weigh. rewrite He. cbn [bind]. eexists. eexists. split; [reflexivity|].
  assert (forall w (v : Z) r n l, 0 <= w -> zget (de_nents elems) r = Ok n -> l = repeat v (Z.to_nat (n * w)) -> zlen l = n * w) as L.
  { intros w v r n l Hw Hn ->. unfold zlen. rewrite repeat_length. destruct (l_owners _ _ Se) as (_ & _ & _ & A & _). pose proof (A r n Hn). nia. }
  split; (split; [rewrite zlen_map; reflexivity|]); intros r n x Hn Hx; apply zget_map_inv in Hx as (n' & Hn' & ->); assert (n' = n) as -> by congruence; [eapply (L 3); eauto; lia|]. eapply (L 1); eauto; [lia|]. do 2 f_equal. lia.
Qed.
(** every other item of each rank; in the second communicator the other way round *)
Definition ex_mark (path : list Z) (coords masses : list (list Z)) : res (list (list Z)) :=
  Ok (map (fun m => map (fun i => (i + match path with 1 :: _ => 1 | _ => 0 end) mod 2) (zrange (zlen m))) masses).
Lemma ex_mark_ok : marks_all ex_mark.
Proof.
  intros path coords masses sizes _ [L G]. eexists. split; [reflexivity|]. split; [rewrite zlen_map; exact L|]. intros r n x Hn Hx. apply zget_map_inv in Hx as (m & Hm & ->). rewrite zlen_map, zlen_zrange by apply zlen_nonneg. exact (G r n m Hn Hm).
Qed.

(** six segments: rank 0 has three, the others one each *)
Definition bx_verts := DEnts [4; 2; 2; 2] [[]; []; []; []] None [[0; 0; 0; 0]; [1; 0]; [1; 2]; [2; 3]] [[0; 1; 2; 3]; [0; 3]; [0; 1]; [1; 1]]
  [DTag global_name OMEGA_H_I64 1 [[0; 1; 2; 3]; [4; 3]; [4; 5]; [5; 6]]].
Definition bx_edges := DEnts [3; 1; 1; 1] [[0; 1; 1; 2; 2; 3]; [1; 0]; [0; 1]; [0; 1]] None [[0; 0; 0]; [1]; [2]; [3]] [[0; 1; 2]; [0]; [0]; [0]]
  [DTag global_name OMEGA_H_I64 1 [[2; 1; 0]; [3]; [4]; [5]]; DTag (ex_name "size") OMEGA_H_F64 1 [[50; 51; 52]; [53]; [54]; [55]]].
Definition bx_mesh := DMesh OMEGA_H_SIMPLEX 1 [bx_verts; bx_edges].
Definition bx_asked := Asked [[0; 1; 1; 2; 2; 3]; [1; 0]; [0; 1]; [0; 1]] [[0; 1; 3; 5; 6]; [0; 1; 2]; [0; 1; 2]; [0; 1; 2]] [[0; 0; 1; 1; 2; 2]; [0; 0]; [0; 0]; [0; 0]].
Definition bx_pm := PMesh bx_mesh (Some OMEGA_H_ELEM_BASED) 0.
Lemma bx_parted : parted 4 bx_pm.
Proof.
  split; [apply soundb_ok; vm_compute; reflexivity|]. split; [apply agreesb_ok; vm_compute; reflexivity|]. split; [apply coveredb_ok; vm_compute; reflexivity|]. split; [exists bx_edges, bx_verts, bx_asked; split; [reflexivity|]; split; [reflexivity|]; apply answeredb_ok; vm_compute; reflexivity|].
  intros elems He. injection He as <-. split; [reflexivity|]. apply ownedb_ok. vm_compute. reflexivity.
Qed.
Lemma bx_once : each_once bx_mesh.
Proof.
  assert (all_zget (de_ranks bx_edges) (fun s a => forallb (fun x => match (i <- zget (de_idxs bx_edges) s ;; zget i x) with Ok j => j =? x | _ => false end) (zrange (zlen a))) = true) as H by (vm_compute; reflexivity).
  assert (forall s x t j, owner_is (de_ranks bx_edges) (de_idxs bx_edges) s x t j -> j = x) as K.
  { intros s x t j [(a & Ha & Hx) (b & Hb & Hj)]. pose proof (all_zget_ok _ _ H s a Ha) as K. cbv beta in K. rewrite forallb_forall in K. specialize (K x (proj2 (in_zrange _ _) (zget_bounds _ _ _ Hx))). rewrite Hb in K. cbn [bind] in K. rewrite Hj in K. apply Z.eqb_eq in K. exact K. }
  intros elems s x y t j He O1 O2. injection He as <-. apply K in O1, O2. congruence.
Qed.
(** global numbers of the segments of each rank before and after *)
Lemma bx_run : (pm <- balance ex_by_sorting ask_bounds ex_weigh ex_mark 4 bx_pm ;; elems_seen (Ok (pm_mesh pm))) =
  Ok ([[2; 3; 4]; [0; 5]; []; [1]], [[0; 0; 0]; [1; 1]; []; [3]], [[0; 1; 2]; [0; 1]; []; [0]]).
Proof. vm_compute. reflexivity. Qed.
(** from a partition with ghosts *)
Lemma bx_run_ghosted : (pm <- set_parting ex_by_sorting ask_bounds 4 bx_pm OMEGA_H_GHOSTED 2 ;; pm <- balance ex_by_sorting ask_bounds ex_weigh ex_mark 4 pm ;; elems_seen (Ok (pm_mesh pm))) =
  Ok ([[0; 3; 4]; [2; 5]; []; [1]], [[0; 0; 0]; [1; 1]; []; [3]], [[0; 1; 2]; [0; 1]; []; [0]]).
Proof. vm_compute. reflexivity. Qed.
Lemma px_not_balanced : balance ex_by_sorting ask_bounds ex_weigh ex_mark 3 px_mesh = Abort.
Proof. vm_compute. reflexivity. Qed.
Lemma any_number_refuted : ~ forall inv ask (weigh : dmesh -> res (list (list Z) * list (list Z))) mark nranks pm, inverter inv -> answers nranks ask -> weighs nranks weigh -> marks_all mark -> parted nranks pm -> pm_parting pm = Some OMEGA_H_ELEM_BASED ->
  exists pm', balance inv ask weigh mark nranks pm = Ok pm'.
Proof.
  intros H. destruct (H ex_by_sorting ask_bounds ex_weigh ex_mark 3 px_mesh sorting_inverter (ask_bounds_ok 3) (ex_weigh_ok 3) ex_mark_ok px_parted eq_refl) as (pm' & E). rewrite px_not_balanced in E. discriminate.
Qed.
