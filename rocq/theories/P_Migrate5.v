From Verif Require Import Prelude M_Array M_Par M_Scan S_Scan M_Sort S_Sort M_Map S_Map M_Tags P_Tags M_Template M_Dist S_Dist M_Owners S_Owners P_Array P_Scan P_Map P_Map2 P_Fan P_Invert P_Dist P_Dist2 P_Dist3 P_Dist4 P_Dist5 P_Dist6 P_Link P_Link2 P_Owners M_Migrate S_Migrate P_Migrate P_Migrate2 P_Migrate3 P_Migrate4.
Local Open Scope Z_scope.

Lemma Forall2_snoc {A B} (R : A -> B -> Prop) l l' x y : Forall2 R l l' -> R x y -> Forall2 R (l ++ [x]) (l' ++ [y]).
Proof. intros H Hxy. apply Forall2_app; [exact H|]. constructor; [exact Hxy|constructor]. Qed.
Lemma Forall2_zlen {A B} (R : A -> B -> Prop) l l' : Forall2 R l l' -> zlen l' = zlen l.
Proof. induction 1; [reflexivity|]. rewrite !zlen_cons. lia. Qed.
Lemma tags_moved_names src l l' : Forall2 (tag_moved src) l l' -> map dt_name l' = map dt_name l.
Proof. induction 1 as [|x y l l' (H & _) _ IH]; [reflexivity|]. cbn. rewrite H, IH. reflexivity. Qed.

(** whether anything is a copy of an entity can be decided *)
Lemma classic_copy src r q : (exists s c, copy_of src s c r q) \/ ~ exists s c, copy_of src s c r q.
Proof.
  destruct (in_dec (fun a b : Z * Z => ltac:(decide equality; apply Z.eq_dec)) (r, q) (concat src)) as [H|H].
  - left. apply in_concat in H as (l & H1 & H2). apply P_Map.In_zget in H1 as (s & Hs). apply P_Map.In_zget in H2 as (c & Hc). exists s, c, l. auto.
  - right. intros (s & c & l & H1 & H2). apply H, in_concat. exists l. split; eapply zget_In; eauto.
Qed.

Section ents.
Context (nranks : Z) (e : dents) (new : list dist) (cn : Z -> Z -> Z) (src : list (list (Z * Z))).
Hypothesis Se : sound_level nranks e.
Hypothesis K : link new cn (map (map fst) src) (map (map snd) src) (de_nents e).

Lemma src_len : zlen src = nranks.
Proof. destruct (k_addr _ _ _ _ _ K) as (_ & A & _). rewrite zlen_map in A. rewrite <- A. apply (l_nranks _ _ Se). Qed.

Lemma push_tags_ok : exists tags, push_tags (de_nents e) (map zlen src) (de_tags e) (invert new) = Ok tags /\ Forall2 (tag_moved src) (de_tags e) tags.
Proof.
  pose proof src_len as Ls. unfold push_tags.
  match goal with |- context [on_ranks (invert new) ?F] => destruct (tabulate_rel (zlen (invert new)) (fun r => a <- zget (invert new) r ;; F r a) (fun _ _ => True)) as (us & Eu & _ & _) end; [apply zlen_nonneg| |].
  { unfold invert at 1. rewrite zlen_map. intros r Hr. destruct (zget_in_range new r Hr) as (d & Hd). unfold invert. rewrite (zget_map_ok _ _ _ _ Hd). cbn [bind].
    destruct (zget_in_range (de_nents e) r) as (n & Hn); [rewrite (l_nranks _ _ Se), <- Ls; rewrite (k_len _ _ _ _ _ K), zlen_map in Hr; exact Hr|]. rewrite Hn. cbn [bind].
    destruct (k_fan _ _ _ _ _ K r d n Hd Hn) as (f & Ef & Lf & _). cbn [invert1 roots2items_F]. rewrite Ef. exists tt. split; [|exact I]. unfold check. rewrite (proj2 (Z.eqb_eq _ _)) by lia. reflexivity. }
  unfold on_ranks. rewrite Eu. cbn [bind].
  assert (forall rest done acc, de_tags e = done ++ rest -> Forall2 (tag_moved src) done acc ->
    exists tags, foldM (fun new_tags t => array <- exch (invert new) (dt_data t) (dt_ncomps t) ;;
      add_dtag (map zlen src) new_tags (DTag (dt_name t) (dt_type t) (dt_ncomps t) array)) rest acc = Ok tags /\ Forall2 (tag_moved src) (de_tags e) tags) as Loop.
  { induction rest as [|t rest IH]; intros done acc E F; cbn [foldM].
    - exists acc. split; [reflexivity|]. rewrite E, app_nil_r. exact F.
    - pose proof (l_tags _ _ Se) as Ft. rewrite Forall_forall in Ft. destruct (Ft t) as (Nn & Nc & Dt); [rewrite E; apply in_or_app; right; left; reflexivity|].
      destruct (link_delivers new cn src _ K _ (dt_data t) (dt_ncomps t) ltac:(lia) Dt) as (a & Ea & Da). rewrite Ea. cbn [bind].
      assert (has_dtag acc (dt_name t) = false) as Hn.
      { apply Bool.not_true_iff_false. rewrite has_dtag_in, (tags_moved_names _ _ _ F). pose proof (l_names _ _ Se) as N. rewrite E, map_app in N. cbn in N. apply NoDup_remove_2 in N. intros H. apply N, in_or_app. auto. }
      assert (add_dtag (map zlen src) acc (DTag (dt_name t) (dt_type t) (dt_ncomps t) a) = Ok (acc ++ [DTag (dt_name t) (dt_type t) (dt_ncomps t) a])) as ->.
      { unfold add_dtag. cbn [dt_name dt_ncomps dt_data]. rewrite Hn. unfold check.
        assert (zlen (dt_name t) =? 0 = false) as -> by (apply Z.eqb_neq; destruct (dt_name t); [congruence|rewrite zlen_cons; pose proof (zlen_nonneg l); lia]).
        rewrite (proj2 (Z.leb_le 0 (dt_ncomps t))) by lia. rewrite (proj2 (Z.leb_le (dt_ncomps t) 127)) by lia.
        assert (zlen acc <? 127 = true) as ->.
        { apply Z.ltb_lt. rewrite (Forall2_zlen _ _ _ F). pose proof (l_few _ _ Se) as Lf. rewrite E, zlen_app, zlen_cons in Lf. pose proof (zlen_nonneg rest). lia. }
        cbn [bind negb].
        match goal with |- (_ <- mapM ?G (zrange ?n) ;; _) = _ => destruct (mapM_rel G (zrange n) (fun _ _ _ => True)) as (us' & -> & _) end; [|reflexivity].
        intros i r Hr. pose proof (zget_In _ _ _ Hr) as Hi. apply in_zrange in Hi. rewrite zlen_map in Hi. destruct (zget_in_range src r Hi) as (l & Hl). rewrite (zget_map_ok _ _ _ _ Hl). cbn [bind].
        destruct Da as [La Ga]. destruct (zget_in_range a r ltac:(lia)) as (y & Hy). rewrite Hy. cbn [bind]. rewrite (proj1 (Ga r l y Hl Hy)), Z.eqb_refl. eauto. }
      cbn [bind]. apply (IH (done ++ [t])); [rewrite <- app_assoc; exact E|]. apply Forall2_snoc; [exact F|]. split; [reflexivity|]. split; [reflexivity|]. split; [reflexivity|]. exact Da. }
  apply (Loop (de_tags e) [] []); [reflexivity|constructor].
Qed.

Lemma same_copies s i t j : same_entity (map (map fst) src) (map (map snd) src) s i t j <-> exists r q, copy_of src s i r q /\ copy_of src t j r q.
Proof.
  unfold same_entity. split; intros (r & q & H).
  - exists r, q. rewrite !copy_ranks. unfold owner_is. tauto.
  - exists r, q. rewrite !copy_ranks in H. unfold owner_is in H. tauto.
Qed.
Lemma per_copy_sizes x : per_copy (map (map fst) src) x <-> data_per_root (map zlen src) x 1.
Proof.
  unfold per_copy, data_per_root. rewrite !zlen_map. split; intros [L H]; (split; [exact L|]).
  - intros r k y Hk Hy. apply zget_map_inv in Hk as (l & Hl & ->). rewrite (H r (map fst l) y (zget_map_ok _ _ _ _ Hl) Hy), zlen_map. lia.
  - intros s a y Ha Hy. apply zget_map_inv in Ha as (l & Hl & ->). rewrite zlen_map, (H s (zlen l) y (zget_map_ok _ _ _ _ Hl) Hy). lia.
Qed.

Lemma push_ents_ok mode d down codes : exists e', push_ents mode d e (map zlen src) down codes new (invert new) = Ok e' /\
  level_moved mode d e e' src /\ de_down e' = down /\ de_codes e' = codes.
Proof.
  destruct push_tags_ok as (tags & Et & Ft). unfold push_ents. rewrite Et. cbn [bind]. pose proof src_len as Ls.
  assert (exists ranks idxs, ('(ranks, idxs) <- (own_ranks <- match mode, d =? VERT with
    | OMEGA_H_GHOSTED, _ | OMEGA_H_VERT_BASED, true => x <- exch (invert new) (de_ranks e) 1 ;; Ok (Some x)
    | _, _ => Ok None
    end ;; update_ownership new own_ranks) ;; Ok (ranks, idxs)) = Ok (ranks, idxs) /\ per_copy (map (map fst) src) ranks /\ per_copy (map (map fst) src) idxs /\
    if keeps_owners mode d then owners_kept src e (DEnts (map zlen src) down codes ranks idxs tags) else owners_chosen src (DEnts (map zlen src) down codes ranks idxs tags)) as (ranks & idxs & Eo & P1 & P2 & Ho).
  { assert (match mode, d =? VERT with
    | OMEGA_H_GHOSTED, _ | OMEGA_H_VERT_BASED, true => x <- exch (invert new) (de_ranks e) 1 ;; Ok (Some x)
    | _, _ => Ok None
    end = if keeps_owners mode d then x <- exch (invert new) (de_ranks e) 1 ;; Ok (Some x) else Ok None) as -> by (unfold keeps_owners, VERT; destruct mode; [reflexivity|reflexivity|destruct (d =? 0); reflexivity]).
    destruct (keeps_owners mode d).
    - destruct (link_delivers new cn src _ K _ (de_ranks e) 1 ltac:(lia) (l_size _ _ Se)) as (own & Eo & Do). rewrite Eo. cbn [bind].
      assert (per_copy (map (map fst) src) own) as Po.
      { apply per_copy_sizes. destruct Do as [L G]. split; [rewrite zlen_map; exact L|]. intros r k x Hk Hx. apply zget_map_inv in Hk as (l & Hl & ->). apply (G r l x Hl Hx). }
      destruct (update_by_rank _ _ _ _ _ K own Po) as (idxs & Eu & Pi & G). rewrite Eu. cbn [bind]. exists own, idxs. split; [reflexivity|]. split; [exact Po|]. split; [exact Pi|].
      assert (forall s c r q o, copy_of src s c r q -> goes_to (de_ranks e) r q o -> goes_to own s c o) as Go.
      { intros s c r q o (l & Hl & Hc) (a & Ha & Ho). destruct Do as [L D]. destruct (zget_in_range own s) as (y & Hy); [rewrite L; eapply zget_bounds; eauto|]. destruct (D s l y Hl Hy) as [_ D2].
        destruct (D2 c r q a Hc Ha 0 ltac:(lia)) as (v & V1 & V2). rewrite !Z.mul_1_r, !Z.add_0_r in V1, V2. exists y. split; [exact Hy|congruence]. }
      intros r q o Ho. cbn [de_ranks de_idxs].
      destruct (classic_copy src r q) as [(s & c & Hc)|No].
      2:{ exists (-1). split; [intros s c Hc; exfalso; eauto|]. right. split; [reflexivity|]. intros y Hy. eauto. }
      pose proof (proj1 (copy_ranks _ _ _ _ _) Hc) as [C1 C2]. destruct (G s c r C1) as (x & G1 & G2). exists x.
      split; [intros s' c' Hc'; split; [eapply Go; eauto|apply G1; apply same_copies; eauto]|]. destruct G2 as [[-> N]|(t & T1 & T2)].
      + right. split; [reflexivity|]. intros y Hy. apply (N o y); [apply same_copies; eauto|eapply Go; eauto].
      + left. apply same_copies in T1 as (r' & q' & T3 & T4). destruct (copy_fun _ _ _ _ _ _ _ Hc T3) as [<- <-]. pose proof (goes_to_fun _ _ _ _ _ T2 (Go _ _ _ _ _ T4 Ho)) as <-. exact T4.
    - cbn [bind]. destruct (update_by_size _ _ _ _ _ K) as (ranks & idxs & Eu & P1 & P2 & G). rewrite Eu. cbn [bind]. exists ranks, idxs. split; [reflexivity|]. split; [exact P1|]. split; [exact P2|].
      intros s c r q Hc. cbn [de_ranks de_idxs]. pose proof (proj1 (copy_ranks _ _ _ _ _) Hc) as [C1 C2]. destruct (G s c r C1) as (t & x & T & H). apply same_copies in T as (r' & q' & T3 & T4).
      destruct (copy_fun _ _ _ _ _ _ _ Hc T3) as [<- <-]. exists t, x. split; [exact T4|]. intros s' c' Hc'. destruct (H s' c') as (H1 & n & n' & (a & Ha & <-) & (a' & Ha' & <-) & H2); [apply same_copies; eauto|]. split; [exact H1|].
      apply zget_map_inv in Ha as (l & Hl & ->). apply zget_map_inv in Ha' as (l' & Hl' & ->). rewrite !zlen_map in H2. eauto. }
  apply bind_ok in Eo as ([ranks' idxs'] & Eo & E2). injection E2 as <- <-. apply bind_ok in Eo as (own & Eo & Eu).
  exists (DEnts (map zlen src) down codes ranks' idxs' tags).
  match goal with |- context [bind ?M _] => match M with context [exch] => replace M with (Ok own) end end. cbn [bind]. rewrite Eu. cbn [bind].
  unfold check_owners.
  match goal with |- context [mapM ?G (zrange ?n)] => destruct (mapM_rel G (zrange n) (fun _ _ _ => True)) as (us' & -> & _) end.
  { intros i r Hr. pose proof (zget_In _ _ _ Hr) as Hi. apply in_zrange in Hi. rewrite zlen_map in Hi. destruct (zget_in_range src r Hi) as (l & Hl). rewrite (zget_map_ok _ _ _ _ Hl). cbn [bind].
    destruct P1 as [L1 P1]. destruct P2 as [L2 P2]. rewrite zlen_map in L1, L2. destruct (zget_in_range ranks' r ltac:(lia)) as (a & Ha). destruct (zget_in_range idxs' r ltac:(lia)) as (b & Hb). rewrite Ha, Hb. cbn [bind].
    rewrite (P1 r (map fst l) a (zget_map_ok _ _ _ _ Hl) Ha), (P2 r (map fst l) b (zget_map_ok _ _ _ _ Hl) Hb), !zlen_map. unfold check. rewrite Z.eqb_refl. cbn [bind]. eauto. }
  cbn [bind]. split; [reflexivity|]. split; [|split; reflexivity]. constructor; cbn [de_nents de_tags de_ranks de_idxs]; [reflexivity|exact Ft|split; apply per_copy_sizes; assumption|exact Ho].
Qed.
End ents.

Lemma count_ents_ok deg (src : list (list (Z * Z))) conn : 0 < deg -> data_per_root (map zlen src) conn deg -> count_ents deg conn = Ok (map zlen src).
Proof.
  intros Hd [L H]. rewrite zlen_map in L. unfold count_ents. destruct (mapM_rel (fun x => divide_no_remainder (zlen x) deg) conn (fun s x n => exists l, zget src s = Ok l /\ n = zlen l)) as (o & Eo & Lo & Go).
  - intros s x Hx. destruct (zget_in_range src s) as (l & Hl); [rewrite <- L; eapply zget_bounds; eauto|]. exists (zlen l). split; [|eauto].
    rewrite (H s (zlen l) x (zget_map_ok _ _ _ _ Hl) Hx). unfold divide_no_remainder, check. rewrite (proj2 (Z.eqb_neq deg 0)) by lia. cbn [negb bind]. rewrite Z.rem_mul, Z.quot_mul by lia. reflexivity.
  - rewrite Eo. f_equal. apply list_eq_zget; [rewrite zlen_map; lia|]. intros s Hs. destruct (zget_in_range o s Hs) as (n & Hn). destruct (zget_in_range conn s ltac:(lia)) as (x & Hx).
    destruct (Go s x n Hx Hn) as (l & Hl & ->). rewrite Hn, (zget_map_ok _ _ _ _ Hl). reflexivity.
Qed.
Lemma degree_pos f d : 0 <= d <= 2 -> 0 < element_degree f (d + 1) d.
Proof. intros H. assert (d = 0 \/ d = 1 \/ d = 2) as [->|[->| ->]] by lia; destruct f; vm_compute; reflexivity. Qed.

Section dims.
Context (inv : Z -> list Z -> Z -> res (list Z * list Z)) (nranks : Z) (m : dmesh) (mode : parting).
Hypothesis Hinv : inverter inv.
Hypothesis Sm : sound nranks m.

Lemma push_dims_ok : forall d new cn src e, Z.of_nat d <= dm_dim m -> zget (dm_ents m) (Z.of_nat d) = Ok e ->
  link new cn (map (map fst) src) (map (map snd) src) (de_nents e) ->
  exists ents srcs, push_dims inv (dm_family m) mode m d (invert new) = Ok (rev ents) /\ zlen ents = Z.of_nat d + 1 /\ zlen srcs = Z.of_nat d + 1 /\ zget srcs (Z.of_nat d) = Ok src /\
  (forall k e e' src, zget (dm_ents m) k = Ok e -> zget ents k = Ok e' -> zget srcs k = Ok src -> level_moved mode k e e' src) /\
  forall k high low high' hsrc lsrc, zget (dm_ents m) (k + 1) = Ok high -> zget (dm_ents m) k = Ok low -> zget ents (k + 1) = Ok high' -> zget srcs (k + 1) = Ok hsrc -> zget srcs k = Ok lsrc ->
    lows_of (element_degree (dm_family m) (k + 1) k) high low hsrc lsrc /\ sides_moved (element_degree (dm_family m) (k + 1) k) high low high' hsrc lsrc.
Proof.
  destruct Sm as [Sdim Srk Slv Sle Ssd]. induction d as [|d IH]; intros new cn src e Hd He K.
  - change (Z.of_nat 0) with 0 in *. cbn [push_dims]. unfold VERT at 1. rewrite He. cbn [bind]. rewrite invert_invert. destruct (server_view _ _ _ _ _ K) as (_ & _ & _ & _ & _ & En & _). rewrite En. cbn [bind].
    assert (map zlen (map (map fst) src) = map zlen src) as -> by (rewrite map_map; apply map_ext; intros; apply zlen_map).
    destruct (push_ents_ok nranks e new cn src (Sle 0 e He) K mode VERT [] None) as (e' & Ee & Lm & _). rewrite Ee. cbn [bind]. exists [e'], [src]. split; [reflexivity|]. split; [reflexivity|]. split; [reflexivity|]. split; [reflexivity|]. split.
    + intros k e1 e2 s1 H1 H2 H3. pose proof (zget_bounds _ _ _ H2) as B. change (zlen [e']) with 1 in B. assert (k = 0) as -> by lia. cbn in H2, H3. injection H2 as <-. injection H3 as <-. assert (e1 = e) as -> by congruence. exact Lm.
    + intros k high low high' hsrc lsrc _ H2 H3. apply zget_bounds in H2, H3. change (zlen [e']) with 1 in H3. lia.
  - assert (Z.of_nat (S d) = Z.of_nat d + 1) as Es by lia. rewrite Es in *. set (D := Z.of_nat d) in *.
    destruct (zget_in_range (dm_ents m) D) as (low & Hlow); [lia|]. cbn [push_dims]. rewrite Es. fold D. rewrite He. replace (D + 1 - 1) with D by lia. rewrite Hlow. cbn [bind].
    pose proof (degree_pos (dm_family m) D ltac:(lia)) as Hdeg. set (deg := element_degree (dm_family m) (D + 1) D) in *.
    destruct (push_down_ok inv nranks deg e low new cn src Hinv Hdeg ltac:(lia) (Sle _ _ He) (Sle _ _ Hlow) (Ssd D e low He Hlow) K) as (conn & codes & nl & cl & lsrc & Ep & Kl & Lo & Dc & Gc & Gk). rewrite Ep. cbn [bind].
    rewrite (count_ents_ok deg src conn Hdeg Dc). cbn [bind]. rewrite invert_invert.
    destruct (push_ents_ok nranks e new cn src (Sle _ _ He) K mode (D + 1) conn codes) as (e' & Ee & Lm & Edn & Ecd). rewrite Ee. cbn [bind].
    destruct (IH nl cl lsrc low ltac:(lia) Hlow Kl) as (ents & srcs & Er & Le & Ls & Gs & Glv & Gsd). rewrite Er. cbn [bind].
    exists (ents ++ [e']), (srcs ++ [src]). split; [rewrite rev_app_distr; reflexivity|]. split; [rewrite zlen_app, Le; reflexivity|]. split; [rewrite zlen_app, Ls; reflexivity|].
    assert (forall A (l : list A) x k y, zlen l = D + 1 -> zget (l ++ [x]) k = Ok y -> (k <= D /\ zget l k = Ok y) \/ (k = D + 1 /\ y = x)) as Cut.
    { intros A l x k y Hl Hk. pose proof (zget_bounds _ _ _ Hk) as B. rewrite zlen_app, Hl in B. change (zlen [x]) with 1 in B. destruct (Z.le_gt_cases k D).
      - left. split; [assumption|]. rewrite zget_app_l in Hk by lia. exact Hk.
      - right. split; [lia|]. rewrite zget_app_r in Hk by lia. assert (k = D + 1) as -> by lia. rewrite Hl, Z.sub_diag in Hk. cbn in Hk. congruence. }
    split; [rewrite zget_app_r by lia; rewrite Ls, Z.sub_diag; reflexivity|]. split.
    + intros k e1 e2 s1 H1 H2 H3. apply Cut in H2 as [[B2 H2]|[-> ->]]; [| |exact Le].
      * apply Cut in H3 as [[B3 H3]|[-> _]]; [|lia|exact Ls]. eauto.
      * apply Cut in H3 as [[B3 _]|[_ ->]]; [lia| |exact Ls]. assert (e1 = e) as -> by congruence. exact Lm.
    + intros k high lo high' hsrc ls H1 H2 H3 H4 H5. apply Cut in H3 as [[B3 H3]|[E3 ->]]; [| |exact Le].
      * apply Cut in H4 as [[B4 H4]|[E4 _]]; [|lia|exact Ls]. apply Cut in H5 as [[B5 H5]|[E5 _]]; [|lia|exact Ls]. eauto.
      * assert (k = D) as -> by lia. apply Cut in H4 as [[B4 H4]|[_ ->]]; [lia| |exact Ls]. apply Cut in H5 as [[_ H5]|[E5 _]]; [|lia|exact Ls].
        assert (high = e) as -> by congruence. assert (lo = low) as -> by congruence. assert (ls = lsrc) as -> by congruence. fold deg. split; [exact Lo|]. split; [|split].
        -- rewrite (v_nents _ _ _ _ _ Lm), Edn. exact Dc.
        -- rewrite Edn. exact Gc.
        -- rewrite Ecd. exact Gk.
Qed.

(** ** the whole function, for any distributor that takes new elements to old ones *)
Lemma migrate_link new cn src e : zget (dm_ents m) (dm_dim m) = Ok e -> link new cn (map (map fst) src) (map (map snd) src) (de_nents e) ->
  exists m' srcs, migrate_mesh inv m new mode = Ok m' /\ zget srcs (dm_dim m) = Ok src /\ migrated mode m m' srcs.
Proof.
  intros He K. destruct Sm as [Sdim Srk Slv Sle Ssd].
  destruct (push_dims_ok (Z.to_nat (dm_dim m)) new cn src e) as (ents & srcs & Ep & Le & Ls & Gs & Glv & Gsd); [lia|rewrite Z2Nat.id by lia; exact He|exact K|]. rewrite Z2Nat.id in Le, Ls, Gs by lia.
  assert (forall m0, dm_dim m0 = dm_dim m -> (forall d, 0 <= d <= dm_dim m -> exists e, zget (dm_ents m0) d = Ok e /\ In global_name (map dt_name (de_tags e))) -> check_globals m0 = Ok tt) as Cg.
  { intros m0 Ed H. unfold check_globals. rewrite Ed. match goal with |- context [mapM ?G (zrange ?n)] => destruct (mapM_rel G (zrange n) (fun _ _ _ => True)) as (us' & -> & _) end; [|reflexivity].
    intros i d Hi. apply zget_In, in_zrange in Hi. destruct (H d ltac:(lia)) as (e0 & H1 & H2). rewrite H1. cbn [bind]. rewrite (proj2 (has_dtag_in _ _) H2). exists tt. split; [reflexivity|exact I]. }
  assert (forall d e, zget (dm_ents m) d = Ok e -> In global_name (map dt_name (de_tags e))) as Hg.
  { intros d e0 H0. destruct (l_global _ _ (Sle d e0 H0)) as (t & It & Nt & _). rewrite <- Nt. apply in_map, It. }
  exists (DMesh (dm_family m) (dm_dim m) ents), srcs. split; [|split; [exact Gs|]].
  - unfold migrate_mesh. rewrite (Cg m eq_refl); [cbn [bind]|intros d Hd; destruct (zget_in_range (dm_ents m) d ltac:(lia)) as (e0 & H0); eauto].
    rewrite Ep. cbn [bind]. rewrite rev_involutive, Cg; [reflexivity|reflexivity|]. cbn [dm_ents]. intros d Hd. destruct (zget_in_range ents d ltac:(lia)) as (e' & He'). exists e'. split; [exact He'|].
    destruct (zget_in_range (dm_ents m) d ltac:(lia)) as (e0 & H0). destruct (zget_in_range srcs d ltac:(lia)) as (s0 & Hs0). pose proof (v_tags _ _ _ _ _ (Glv d e0 e' s0 H0 He' Hs0)) as F. rewrite (tags_moved_names _ _ _ F). eauto.
  - constructor; cbn [dm_family dm_dim dm_ents]; auto.
Qed.
End dims.

(** for a distributor from new elements to their old owners *)
Definition pair_up (ranks idxs : list (list Z)) : list (list (Z * Z)) := map (fun p => combine (fst p) (snd p)) (combine ranks idxs).
Lemma pair_up_ok : forall (ranks idxs : list (list Z)), zlen idxs = zlen ranks -> (forall s a b, zget ranks s = Ok a -> zget idxs s = Ok b -> zlen b = zlen a) ->
  map (map fst) (pair_up ranks idxs) = ranks /\ map (map snd) (pair_up ranks idxs) = idxs.
Proof.
  induction ranks as [|a ranks IH]; intros [|b idxs] L H.
  - split; reflexivity.
  - rewrite zlen_cons in L. pose proof (zlen_nonneg idxs). change (zlen (@nil (list Z))) with 0 in L. lia.
  - rewrite zlen_cons in L. pose proof (zlen_nonneg ranks). change (zlen (@nil (list Z))) with 0 in L. lia.
  - rewrite !zlen_cons in L.
  assert (forall (x : list Z) l k, 0 <= k -> zget (x :: l) (k + 1) = zget l k) as Sh by (intros x l k Hk; unfold zget; rewrite (proj2 (Z.ltb_ge _ _)), (proj2 (Z.ltb_ge k _)) by lia; rewrite Z2Nat.inj_add by lia; rewrite Nat.add_1_r; reflexivity).
  destruct (IH idxs) as [I1 I2]; [lia| |].
  { intros s x y Hx Hy. apply (H (s + 1)); rewrite Sh; auto; apply zget_bounds in Hx; lia. }
  unfold pair_up in *. cbn [combine map fst snd]. rewrite I1, I2. pose proof (H 0 a b eq_refl eq_refl) as E. unfold zlen in E.
    assert (forall u v : list Z, length v = length u -> map fst (combine u v) = u /\ map snd (combine u v) = v) as C.
    { induction u as [|x u IHu]; intros [|y v] Ev; try discriminate; [split; reflexivity|]. cbn in *. destruct (IHu v) as [-> ->]; [congruence|]. split; reflexivity. }
    destruct (C a b ltac:(lia)) as [-> ->]. split; reflexivity.
Qed.


Lemma migrate_ok inv nranks m mode ranks idxs e ds : inverter inv -> sound nranks m -> zget (dm_ents m) (dm_dim m) = Ok e ->
  ranks_exist ranks -> addressed ranks idxs (de_nents e) -> make_dist inv ranks idxs (de_nents e) = Ok ds ->
  exists m' srcs, migrate_mesh inv m ds mode = Ok m' /\ zget srcs (dm_dim m) = Ok (pair_up ranks idxs) /\ migrated mode m m' srcs.
Proof.
  intros Hinv Sm He Rk A M. destruct A as (A1 & A2 & A3 & A4). destruct (pair_up_ok ranks idxs A1 A3) as [E1 E2].
  pose proof (l_nranks _ _ (s_level _ _ Sm _ _ He)) as N. pose proof (s_ranks _ _ Sm) as B.
  assert (link ds (count_to ranks) (map (map fst) (pair_up ranks idxs)) (map (map snd) (pair_up ranks idxs)) (de_nents e)) as K.
  { rewrite E1, E2. apply (make_dist_link inv); auto; [lia|repeat split; auto; apply A4]. }
  apply (migrate_link inv nranks m mode Hinv Sm _ _ _ _ He K).
Qed.
