(** Example data for migration: three triangles in a row, two on rank 0 and one on rank 1. *)
From Coq Require Import String.
From Verif Require Import Prelude M_Array M_Par M_Scan S_Scan M_Sort S_Sort M_Map S_Map M_Tags P_Tags M_Template M_Dist S_Dist M_Owners S_Owners M_Migrate S_Migrate P_Map P_Dist2 P_Dist6 P_Link P_Migrate5 P_Migrate6.
Local Open Scope Z_scope.

(** ** a way to check that a mesh is usable *)
Definition all_zget {A} (l : list A) (P : Z -> A -> bool) : bool := forallb (fun i => match zget l i with Ok x => P i x | _ => true end) (zrange (zlen l)).
Lemma all_zget_ok {A} (l : list A) P : all_zget l P = true -> forall i x, zget l i = Ok x -> P i x = true.
Proof.
  intros H i x Hx. unfold all_zget in H. rewrite forallb_forall in H. specialize (H i). rewrite Hx in H. apply H. apply in_zrange. eapply zget_bounds; eauto.
Qed.
Definition getb {A} (x : res A) (P : A -> bool) : bool := match x with Ok a => P a | _ => false end.
Lemma getb_ok {A} (x : res A) P a : getb x P = true -> x = Ok a -> P a = true.
Proof. intros H ->. exact H. Qed.
Lemma getb_ex {A} (x : res A) P : getb x P = true -> exists a, x = Ok a /\ P a = true.
Proof. destruct x; try discriminate. intros H. eauto. Qed.

Definition per_rootb {A} (nroots : list Z) (data : list (list A)) (w : Z) : bool := (zlen data =? zlen nroots) && all_zget nroots (fun r k => getb (zget data r) (fun x => zlen x =? k * w)).
Lemma per_rootb_ok {A} nroots (data : list (list A)) w : per_rootb nroots data w = true -> data_per_root nroots data w.
Proof.
  unfold per_rootb. intros H. apply andb_prop in H as [H1 H2]. split; [apply Z.eqb_eq, H1|]. intros r k x Hk Hx. pose proof (all_zget_ok _ _ H2 r k Hk) as H. cbv beta in H. apply Z.eqb_eq. exact (getb_ok _ _ _ H Hx).
Qed.
Definition addressedb (ranks idxs : list (list Z)) (nroots : list Z) : bool :=
  (zlen idxs =? zlen ranks) && (zlen nroots =? zlen ranks) && all_zget nroots (fun _ k => 0 <=? k) &&
  all_zget ranks (fun s a => getb (zget idxs s) (fun b => (zlen b =? zlen a) && all_zget a (fun i r => getb (zget b i) (fun q => getb (zget nroots r) (fun k => (0 <=? q) && (q <? k)))))).
Lemma addressedb_ok ranks idxs nroots : addressedb ranks idxs nroots = true -> ranks_exist ranks /\ addressed ranks idxs nroots.
Proof.
  unfold addressedb. intros H. apply andb_prop in H as [H H4]. apply andb_prop in H as [H H3]. apply andb_prop in H as [H1 H2]. apply Z.eqb_eq in H1, H2.
  assert (forall s i r q, goes_to ranks s i r -> goes_to idxs s i q -> exists k, zget nroots r = Ok k /\ 0 <= q < k) as G.
  { intros s i r q (a & Ha & Hi) (b & Hb & Hq). pose proof (all_zget_ok _ _ H4 s a Ha) as H. cbv beta in H. pose proof (getb_ok _ _ _ H Hb) as H'. cbv beta in H'. apply andb_prop in H' as [_ H'].
    pose proof (all_zget_ok _ _ H' i r Hi) as K. cbv beta in K. pose proof (getb_ok _ _ _ K Hq) as K'. cbv beta in K'. apply getb_ex in K' as (k & Hk & B). exists k. split; [exact Hk|]. apply andb_prop in B as [B1 B2]. apply Z.leb_le in B1. apply Z.ltb_lt in B2. lia. }
  assert (forall s a b, zget ranks s = Ok a -> zget idxs s = Ok b -> zlen b = zlen a) as E.
  { intros s a b Ha Hb. pose proof (all_zget_ok _ _ H4 s a Ha) as H. cbv beta in H. pose proof (getb_ok _ _ _ H Hb) as H'. cbv beta in H'. apply andb_prop in H' as [H' _]. apply Z.eqb_eq, H'. }
  split.
  - intros s i r Gr. destruct Gr as (a & Ha & Hi). destruct (zget_in_range idxs s) as (b & Hb); [rewrite H1; eapply zget_bounds; eauto|]. destruct (zget_in_range b i) as (q & Hq); [rewrite (E s a b Ha Hb); eapply zget_bounds; eauto|].
    destruct (G s i r q) as (k & Hk & _); [exists a; auto|exists b; auto|]. rewrite <- H2. eapply zget_bounds; eauto.
  - split; [exact H1|]. split; [exact H2|]. split; [exact E|]. split; [|exact G]. intros r k Hk. apply Z.leb_le. exact (all_zget_ok _ _ H3 r k Hk).
Qed.
Fixpoint distinct (l : list (list Z)) : bool := match l with [] => true | x :: l => negb (existsb (same_name x) l) && distinct l end.
Lemma same_name_eq a b : same_name a b = true <-> a = b.
Proof. apply same_name_spec. Qed.
Lemma distinct_ok l : distinct l = true -> NoDup l.
Proof.
  induction l as [|x l IH]; [constructor|]. cbn. intros H. apply andb_prop in H as [H1 H2]. constructor; [|apply IH, H2]. intros I. apply Bool.negb_true_iff in H1. apply Bool.not_true_iff_false in H1. apply H1, existsb_exists. exists x. split; [exact I|apply same_name_eq; reflexivity].
Qed.
Definition sound_levelb (nranks : Z) (e : dents) : bool :=
  (zlen (de_nents e) =? nranks) && addressedb (de_ranks e) (de_idxs e) (de_nents e) && per_rootb (de_nents e) (de_ranks e) 1 &&
  forallb (fun t => negb (same_name (dt_name t) []) && (1 <=? dt_ncomps t) && (dt_ncomps t <=? 127) && per_rootb (de_nents e) (dt_data t) (dt_ncomps t)) (de_tags e) &&
  distinct (map dt_name (de_tags e)) && (zlen (de_tags e) <=? 127) &&
  existsb (fun t => same_name (dt_name t) global_name && (dt_type t =? OMEGA_H_I64) && (dt_ncomps t =? 1)) (de_tags e).
Lemma sound_levelb_ok nranks e : sound_levelb nranks e = true -> sound_level nranks e.
Proof.
  unfold sound_levelb. rewrite !Bool.andb_true_iff. intros ((((((H1 & H2) & H3) & H4) & H5) & H6) & H7). apply addressedb_ok in H2 as [R A].
  constructor; auto.
  - apply Z.eqb_eq, H1.
  - apply per_rootb_ok, H3.
  - apply Forall_forall. intros t It. rewrite forallb_forall in H4. specialize (H4 t It). rewrite !Bool.andb_true_iff in H4. destruct H4 as (((K1 & K2) & K3) & K4). apply Z.leb_le in K2, K3. split; [|split; [lia|apply per_rootb_ok, K4]].
    intros E. rewrite E in K1. discriminate.
  - apply distinct_ok, H5.
  - apply Z.leb_le, H6.
  - apply existsb_exists in H7 as (t & It & K). rewrite !Bool.andb_true_iff in K. destruct K as ((K1 & K2) & K3). apply same_name_eq in K1. apply Z.eqb_eq in K2, K3. exists t. auto.
Qed.
Definition sound_sidesb (deg : Z) (high low : dents) : bool :=
  per_rootb (de_nents high) (de_down high) deg &&
  all_zget (de_down high) (fun s a => all_zget a (fun _ l => getb (zget (de_nents low) s) (fun n => (0 <=? l) && (l <? n)))) &&
  match de_codes high with Some x => per_rootb (de_nents high) x deg | None => true end.
Lemma sound_sidesb_ok deg high low : sound_sidesb deg high low = true -> sound_sides deg high low.
Proof.
  unfold sound_sidesb. rewrite !Bool.andb_true_iff. intros ((H1 & H2) & H3). constructor.
  - apply per_rootb_ok, H1.
  - intros s c l (a & Ha & Hc). pose proof (all_zget_ok _ _ H2 s a Ha) as H. cbv beta in H. pose proof (all_zget_ok _ _ H c l Hc) as K. cbv beta in K. apply getb_ex in K as (n & Hn & B). apply andb_prop in B as [B1 B2]. apply Z.leb_le in B1. apply Z.ltb_lt in B2. exists n. split; [exact Hn|lia].
  - destruct (de_codes high); [apply per_rootb_ok, H3|exact I].
Qed.
Definition soundb (nranks : Z) (m : dmesh) : bool :=
  (1 <=? dm_dim m) && (dm_dim m <=? 3) && (0 <? nranks) && (nranks <=? i32_max + 1) && (zlen (dm_ents m) =? dm_dim m + 1) &&
  forallb (sound_levelb nranks) (dm_ents m) &&
  all_zget (dm_ents m) (fun d low => match zget (dm_ents m) (d + 1) with Ok high => sound_sidesb (element_degree (dm_family m) (d + 1) d) high low | _ => true end).
Lemma soundb_ok nranks m : soundb nranks m = true -> sound nranks m.
Proof.
  unfold soundb. rewrite !Bool.andb_true_iff. intros ((((((H1 & H2) & H3) & H4) & H5) & H6) & H7). apply Z.leb_le in H1, H2, H4. apply Z.ltb_lt in H3. apply Z.eqb_eq in H5. constructor; try lia.
  - intros d e He. apply sound_levelb_ok. rewrite forallb_forall in H6. apply H6. eapply zget_In; eauto.
  - intros d high low Hh Hl. pose proof (all_zget_ok _ _ H7 d low Hl) as H. cbv beta in H. rewrite Hh in H. apply sound_sidesb_ok, H.
Qed.

(** ** the mesh *)
Definition ex_name (s : string) := name_of s.
Definition ex_verts := DEnts [4; 3] [[]; []] None [[0; 0; 0; 0]; [0; 0; 1]] [[0; 1; 2; 3]; [2; 3; 2]]
  [DTag global_name OMEGA_H_I64 1 [[10; 7; 3; 20]; [3; 20; 5]]; DTag (ex_name "coordinates") OMEGA_H_F64 2 [[0; 0; 1; 0; 0; 1; 1; 1]; [0; 1; 1; 1; 0; 2]]].
Definition ex_edges := DEnts [5; 3] [[0; 1; 1; 2; 2; 0; 1; 3; 3; 2]; [1; 0; 1; 2; 2; 0]] None [[0; 0; 0; 0; 0]; [0; 1; 1]] [[0; 1; 2; 3; 4]; [4; 1; 2]]
  [DTag global_name OMEGA_H_I64 1 [[0; 1; 2; 3; 4]; [4; 5; 6]]].
Definition ex_tris := DEnts [2; 1] [[0; 1; 2; 3; 4; 1]; [0; 1; 2]] (Some [[0; 0; 0; 0; 0; 1]; [1; 0; 0]]) [[0; 0]; [1]] [[0; 1]; [0]]
  [DTag (ex_name "quality") OMEGA_H_F64 1 [[100; 101]; [102]]; DTag global_name OMEGA_H_I64 1 [[0; 1]; [2]]].
Definition ex_tri_mesh := DMesh OMEGA_H_SIMPLEX 2 [ex_verts; ex_edges; ex_tris].
(** rank 0 keeps its first triangle; rank 1 keeps its own and gets the other *)
Definition ex_new_ranks := [[0]; [1; 0]].
Definition ex_new_idxs := [[0]; [0; 1]].
Definition ex_by_sorting := fun _ : Z => invert_map_by_sorting.

Lemma ex_tri_sound : sound 2 ex_tri_mesh.
Proof. apply soundb_ok. vm_compute. reflexivity. Qed.
Lemma ex_tri_addressed : ranks_exist ex_new_ranks /\ addressed ex_new_ranks ex_new_idxs (de_nents ex_tris).
Proof. apply addressedb_ok. vm_compute. reflexivity. Qed.
Definition ex_move (mode : parting) := ds <- make_dist ex_by_sorting ex_new_ranks ex_new_idxs (de_nents ex_tris) ;; migrate_mesh ex_by_sorting ex_tri_mesh ds mode.
(** the new owners of the vertices *)
Lemma ex_elem_based : exists m' verts, ex_move OMEGA_H_ELEM_BASED = Ok m' /\ zget (dm_ents m') 0 = Ok verts /\
  de_nents verts = [3; 4] /\ de_ranks verts = [[0; 0; 0]; [0; 1; 0; 1]] /\ de_idxs verts = [[0; 1; 2]; [0; 1; 1; 3]] /\ globals verts = Ok [[3; 7; 10]; [3; 5; 7; 20]].
Proof. do 2 eexists. split; [vm_compute; reflexivity|]. split; [reflexivity|]. repeat split. Qed.
Lemma ex_ghosted : exists m' verts, ex_move OMEGA_H_GHOSTED = Ok m' /\ zget (dm_ents m') 0 = Ok verts /\ owner_is (de_ranks verts) (de_idxs verts) 1 3 0 (-1).
Proof. do 2 eexists. split; [vm_compute; reflexivity|]. split; [reflexivity|]. split; eexists; split; reflexivity. Qed.

(** ranks that are kept although nothing is copied to them *)
Lemma ghosted_owner_lost : ~ forall inv nranks m mode ranks idxs e, inverter inv -> sound nranks m -> zget (dm_ents m) (dm_dim m) = Ok e ->
  ranks_exist ranks -> addressed ranks idxs (de_nents e) ->
  exists ds m', make_dist inv ranks idxs (de_nents e) = Ok ds /\ migrate_mesh inv m ds mode = Ok m' /\ sound nranks m'.
Proof.
  intros H. destruct ex_tri_addressed as [R A]. destruct (H ex_by_sorting 2 ex_tri_mesh OMEGA_H_GHOSTED ex_new_ranks ex_new_idxs ex_tris sorting_inverter ex_tri_sound eq_refl R A) as (ds & m' & E1 & E2 & S).
  destruct ex_ghosted as (m1 & verts & E & Hv & O1 & O2). unfold ex_move in E. rewrite E1 in E. cbn [bind] in E. rewrite E2 in E. injection E as ->.
  destruct (l_owners _ _ (s_level _ _ S 0 verts Hv)) as (_ & _ & _ & _ & G). destruct (G 1 3 0 (-1) O1 O2) as (k & _ & B). lia.
Qed.
