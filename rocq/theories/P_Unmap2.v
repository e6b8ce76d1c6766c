(** Picking and renumbering the entities of a mesh: what the program does. *)
From Coq Require Import String.
From Verif Require Import Prelude M_Array M_Par M_Scan S_Sort M_Sort M_Map S_Map P_Map P_Map2 M_Template S_Template P_Template M_Align S_Align P_Align M_Unique S_Unique P_Unique M_Adj S_Adj P_Adj S_Transit P_Transit
  S_Match P_Match M_Tags S_Tags P_Tags P_Tags2 M_MeshAdj S_MeshAdj P_MeshAdj2 P_MeshAdj3 M_Build S_Build P_Build P_Box M_Unmap S_Unmap P_Unmap.
Local Open Scope Z_scope.

(** ** Tags *)
Lemma filter_none dim n l : 1 <= dim -> filter (fun t => negb (negb false && (0 =? 0) && derived dim n 0 (tag_name t))) l = l.
Proof. intros H. apply filter_all. intros t _. rewrite derived_not_vert by exact H. reflexivity. Qed.
Lemma put_new l t : ~ In (tag_name t) (names l) -> put l t = l ++ [t].
Proof. intros H. unfold put. apply find_none in H. rewrite H. reflexivity. Qed.
Lemma skipn_next {A} (l : list A) k t : nth_error l k = Some t -> skipn k l = t :: skipn (S k) l.
Proof. revert l. induction k as [|k IH]; intros [|x l] H; cbn in H; try discriminate; [cbn; congruence|]. exact (IH l H). Qed.
Lemma firstn_next {A} (l : list A) k t : nth_error l k = Some t -> firstn (S k) l = firstn k l ++ [t].
Proof. revert l. induction k as [|k IH]; intros [|x l] H; cbn in H; try discriminate; [cbn; congruence|]. cbn [app]. change (x :: firstn (S k) l = x :: (firstn k l ++ [t])). f_equal. exact (IH l H). Qed.
Section tags.
Context (l : list Z) (n : Z) (Hl : forall e, In e l -> 0 <= e < n).
Context (old : tmesh) (Vold : valid old) (d : Z) (Hd : 0 <= d <= M_Tags.t_dim old) (Nold : nents_at old d = n) (Hn : 0 <= n).
Context (Htags : forall t, In t (tags_at old d) -> tag_name t <> [] /\ 0 <= tag_ncomps t <= 127 /\ In (tag_type t) [OMEGA_H_I8; OMEGA_H_I32; OMEGA_H_I64; OMEGA_H_F64] /\
      exists a, tag_array t = Some a /\ zlen a = n * tag_ncomps t).
Context (Hmany : zlen (tags_at old d) <= 127).
Context (new : tmesh) (Vnew : valid new) (Dnew : M_Tags.t_dim new = M_Tags.t_dim old) (Nnew : nents_at new d = zlen l) (Enew : forall d', d <= d' -> tags_at new d' = []).

Lemma unmap_tags_ok : exists new', unmap_tags old new d l = Ok new' /\ valid new' /\ alike new new' /\ Forall2 (carries l) (tags_at old d) (tags_at new' d) /\ forall d', d' <> d -> tags_at new' d' = tags_at new d'.
Proof.
  unfold unmap_tags, ntags. rewrite (P_Tags.check_dim2_ok old d Vold Hd ltac:(lia)). cbn [bind]. rewrite (tags_at_ok old d Vold Hd). cbn [bind]. set (tags := tags_at old d) in *.
  destruct (forM_invariant (fun i m => valid m /\ alike new m /\ Forall2 (carries l) (firstn (Z.to_nat i) tags) (tags_at m d) /\ forall d', d' <> d -> tags_at m d' = tags_at new d') (zlen tags) new (fun m i => unmap_tag old m d l i) (zlen_nonneg _)) as (m' & E & V & A & F & O).
  - split; [exact Vnew|]. split; [split; reflexivity|]. split; [rewrite (Enew d ltac:(lia)); constructor|auto].
  - intros i m Hi (V & A & F & O). unfold unmap_tag. unfold get_tag_i, ntags. rewrite (P_Tags.check_dim2_ok old d Vold Hd ltac:(lia)). cbn [bind]. rewrite (tags_at_ok old d Vold Hd). cbn [bind]. fold tags.
    replace (0 <=? i) with true by lia. replace (i <=? zlen tags) with true by lia. cbn [negb]. destruct (zget_in_range tags i Hi) as (t & Et). rewrite Et. cbn [bind]. destruct (Htags t (zget_In _ _ _ Et)) as (T1 & T2 & T3 & a & Ea & La).
    assert ((tag_type t =? OMEGA_H_I8) || (tag_type t =? OMEGA_H_I32) || (tag_type t =? OMEGA_H_I64) || (tag_type t =? OMEGA_H_F64) = true) as ET. { cbn [In] in T3. rewrite !orb_true_iff, !Z.eqb_eq. intuition. }
    rewrite ET, Ea. assert (maps_into l a (tag_ncomps t)) as MI. { intros b Hb. apply Hl in Hb. split; [lia|]. rewrite La. nia. }
    destruct (unmap_spec l a (tag_ncomps t) ltac:(lia) MI) as (r & Er & Lr & Rr). rewrite Er. cbn [bind]. destruct A as [A1 A2]. assert (nents_at m d = zlen l) as Nm by (unfold nents_at; rewrite A2; exact Nnew).
    pose proof Vold as (_ & _ & _ & VN). destruct (VN d) as [ND _]. fold tags in ND. pose proof (proj1 (zget_ok _ _ _) Et) as [_ Et'].
    assert (tags = firstn (Z.to_nat i) tags ++ t :: skipn (S (Z.to_nat i)) tags) as Es. { rewrite <- (firstn_skipn (Z.to_nat i) tags) at 1. f_equal. apply skipn_next, Et'. }
    assert (map tag_name (tags_at m d) = map tag_name (firstn (Z.to_nat i) tags)) as En. { clear - F. induction F as [|x y lx ly C _ IH]; [reflexivity|]. cbn [map]. rewrite IH. f_equal. apply C. }
    assert (~ In (tag_name t) (names (tags_at m d))) as NI. { unfold names. rewrite En. unfold names in ND. rewrite Es, map_app in ND. cbn [map] in ND. apply NoDup_remove_2 in ND. rewrite in_app_iff in ND. tauto. }
    assert (zlen (tags_at m d) = i) as Lm. { replace (zlen (tags_at m d)) with (zlen (map tag_name (tags_at m d))) by apply zlen_map. rewrite En, zlen_map. unfold zlen in *. rewrite firstn_length. lia. }
    destruct (add_ok m (tag_type t) d (tag_name t) (tag_ncomps t) (Some r) false V ltac:(lia) ltac:(pose proof (zlen_nonneg l); lia) T1) as (m' & E'). { intros _. split; [lia|]. unfold tags in Hi, Hmany. lia. } { intros x Ex. injection Ex as <-. rewrite Nm. exact Lr. }
    exists m'. split; [exact E'|]. destruct (add_inv m (tag_type t) d (tag_name t) (tag_ncomps t) (Some r) false m' V E') as (_ & _ & [B1 B2] & V' & _ & _ & TA). split; [exact V'|]. split; [split; congruence|].
    pose proof V as ((D1 & D3) & _).
    split.
    + rewrite TA, Z.eqb_refl. rewrite filter_all. 2:{ intros x _. destruct (Z.eqb_spec d 0) as [->|]; [rewrite derived_not_vert by lia|]; reflexivity. } rewrite put_new by exact NI.
      replace (Z.to_nat (i + 1)) with (S (Z.to_nat i)) by lia. assert (firstn (S (Z.to_nat i)) tags = firstn (Z.to_nat i) tags ++ [t]) as ->. { apply firstn_next, Et'. }
      apply Forall2_app; [exact F|]. constructor; [|constructor]. split; [reflexivity|]. split; [reflexivity|]. split; [reflexivity|]. exists a, r. split; [exact Ea|]. split; [reflexivity|]. split; [exact Lr|]. exact Rr.
    + intros d' Ne. rewrite TA. replace (d' =? d) with false by lia. rewrite (O d' Ne). destruct (Z.eqb_spec d 0) as [E0|E0].
      * destruct (Z_lt_dec d' 0) as [Hneg|Hpos]. { destruct (tags_at new d') as [|x q] eqn:Eq; [reflexivity|]. exfalso. pose proof Vnew as (_ & _ & _ & VV). destruct (proj2 (VV d')) as [[Q _] _]; [rewrite Eq; discriminate|lia]. }
        rewrite (Enew d' ltac:(lia)). reflexivity.
      * apply filter_all. intros x _. rewrite andb_false_r. reflexivity.
  - exists m'. split; [exact E|]. split; [exact V|]. split; [exact A|]. split; [|exact O]. rewrite firstn_all2 in F; [exact F|]. unfold zlen. lia.
Qed.
End tags.

(** ** The loop over the dimensions *)
Lemma run_app es : forall es' m m', run_aevents m es = Ok (Some m') -> run_aevents m (es ++ es') = run_aevents m' es'.
Proof.
  induction es as [|e es IH]; intros es' m m' E; cbn [run_aevents app] in *; [injection E as ->; reflexivity|]. unfold bindo in *. apply bind_ok in E as (o & E1 & E). rewrite E1. cbn [bind]. destruct o as [m1|]; [|discriminate]. exact (IH es' m1 m' E).
Qed.
Lemma well_valid T tm : valid_topology T -> well_tagged T tm -> valid tm /\ (forall d, 0 <= d <= t_dim T -> nents_at tm d = t_nents T d).
Proof.
  intros HT (E1 & E2 & E3 & E4 & E5). pose proof (v_dim T HT) as HD. split.
  - split; [lia|]. split; [exact E2|]. split; [exact E3|]. intros d. unfold tags_at, nents_at. destruct (Z_lt_dec d 0) as [H|H]; [|destruct (Z_le_dec d (t_dim T)) as [H'|H']].
    + destruct (zget (t_tags tm) d) eqn:E; [exfalso; apply zget_bounds in E; lia| |]; (split; [constructor|congruence]).
    + destruct (E5 d ltac:(lia)) as (EN & tags & Et & _ & ND & _). rewrite Et, EN. split; [exact ND|]. intros _. split; [lia|]. apply (v_nents T HT). lia.
    + destruct (Z_lt_dec d 4) as [H4|H4]; [rewrite (E4 d ltac:(lia)); split; [constructor|congruence]|].
      destruct (zget (t_tags tm) d) eqn:E; [exfalso; apply zget_bounds in E; lia| |]; (split; [constructor|congruence]).
  - intros d Hd. unfold nents_at. destruct (E5 d Hd) as (-> & _). reflexivity.
Qed.
Section loop.
Context (T : topology) (HT : valid_topology T) (maps : Z -> list Z) (HP : picks T maps) (c : chance).
Context (tm : tmesh) (HW : well_tagged T tm).
Local Notation F := (t_family T).
Local Notation D := (t_dim T).
Definition m0 : amesh := mk_amesh F D (fun d => if d =? 0 then zlen (maps 0) else -1) (fun _ _ => None).
Record State (k : Z) (old : amesh) (new : tagged_mesh) : Prop := {
  s_old : ready T old;
  s_run : run_aevents m0 (map (fun d => SetEnts d (down' T maps d)) (zfromto 1 k)) = Ok (Some (m_adj new));
  s_family : a_family (m_adj new) = F; s_dim : a_dim (m_adj new) = D;
  s_nents : forall d, 0 <= d <= 3 -> a_nents (m_adj new) d = if (d <? k) || (d =? 0) then zlen (maps d) else -1;
  s_valid : valid (m_tags new); s_tdim : M_Tags.t_dim (m_tags new) = D;
  s_tnents : forall d, 0 <= d <= 3 -> zget (M_Tags.t_nents (m_tags new)) d = Ok (a_nents (m_adj new) d);
  s_after : forall d, k <= d -> tags_at (m_tags new) d = [];
  s_before : forall d, 0 <= d < k -> Forall2 (carries (maps d)) (tags_at tm d) (tags_at (m_tags new) d) }.

Lemma tags_step k old new : 0 <= k <= D -> State k old new -> (0 <= a_nents (m_adj new) k -> a_nents (m_adj new) k = zlen (maps k)) -> 0 <= a_nents (m_adj new) k ->
  exists tags, unmap_tags tm (m_tags new) k (maps k) = Ok tags /\ valid tags /\ M_Tags.t_dim tags = D /\ (forall d, 0 <= d <= 3 -> zget (M_Tags.t_nents tags) d = Ok (a_nents (m_adj new) d)) /\
    (forall d, k + 1 <= d -> tags_at tags d = []) /\ forall d, 0 <= d < k + 1 -> Forall2 (carries (maps d)) (tags_at tm d) (tags_at tags d).
Proof.
  intros Hk S HN HN0. pose proof (v_dim T HT) as HD. destruct (well_valid T tm HT HW) as [V N]. pose proof HW as (W1 & W2 & W3 & W4 & W5). destruct (W5 k Hk) as (_ & tg & Etg & Mg & _ & Hg).
  assert (tags_at tm k = tg) as Eg by (unfold tags_at; rewrite Etg; reflexivity).
  destruct (unmap_tags_ok (maps k) (t_nents T k) (proj2 (proj1 HP k Hk)) tm V k ltac:(lia) (N k Hk) (v_nents T HT k Hk) ltac:(rewrite Eg; exact Hg) ltac:(rewrite Eg; exact Mg) (m_tags new) (s_valid _ _ _ S)) as (tags & E & V' & [A1 A2] & F2 & O).
  - rewrite (s_tdim _ _ _ S). lia.
  - unfold nents_at. rewrite (s_tnents _ _ _ S k ltac:(lia)). exact (HN HN0).
  - exact (s_after _ _ _ S).
  - exists tags. split; [exact E|]. split; [exact V'|]. split; [rewrite A1; exact (s_tdim _ _ _ S)|]. split; [intros d Hd; rewrite A2; exact (s_tnents _ _ _ S d Hd)|]. split.
    + intros d Hd. rewrite O by lia. apply (s_after _ _ _ S). lia.
    + intros d Hd. destruct (Z.eq_dec d k) as [->|Ne]; [exact F2|]. rewrite O by exact Ne. apply (s_before _ _ _ S). lia.
Qed.

Lemma asked_down old k : ready T old -> 1 <= k <= D -> ask_down c old k (k - 1) = Ok (Some (old, t_down T k)).
Proof.
  intros R Hk. pose proof R as [I C]. unfold ask_down. replace (k - 1 <? k) with true by lia. cbn [check bind]. apply ask_cached; [rewrite (i_dim T old I); lia|rewrite (i_dim T old I); lia|apply C; lia|apply C; lia|].
  apply (i_down T old I); [lia|apply C; lia].
Qed.

Lemma set_step k old new : 1 <= k <= D -> State k old new -> exists new', unmap_down c old new k (maps k) (inv T maps (k - 1)) = Ok (Some (old, new')) /\ m_tags new' = mk_tmesh D (M_Tags.t_nents (m_tags new')) (t_tags (m_tags new)) /\
  run_aevents m0 (map (fun d => SetEnts d (down' T maps d)) (zfromto 1 (k + 1))) = Ok (Some (m_adj new')) /\ a_family (m_adj new') = F /\ a_dim (m_adj new') = D /\
  (forall d, 0 <= d <= 3 -> a_nents (m_adj new') d = if d =? k then zlen (maps k) else a_nents (m_adj new) d) /\ zlen (M_Tags.t_nents (m_tags new')) = 4 /\
  forall d, 0 <= d <= 3 -> zget (M_Tags.t_nents (m_tags new')) d = Ok (a_nents (m_adj new') d).
Proof.
  intros Hk S. pose proof (v_dim T HT) as HD. unfold unmap_down. rewrite (asked_down old k (s_old _ _ _ S) Hk). unfold bindo. cbn [bind fst snd]. rewrite (i_family T old (proj1 (s_old _ _ _ S))).
  destruct (down_ok T HT maps HP k Hk) as (ab & codes & Ed & ab' & codes' & Eu & Ed' & L' & _ & C1 & C2). rewrite Eu. cbn [bind]. unfold mesh_set_ents.
  assert (set_ents (m_adj new) k (down' T maps k) = Ok (with_adj (with_nents (m_adj new) k (zlen (maps k))) k (k - 1) (down' T maps k))) as ES.
  { apply set_ents_ok; [rewrite (s_dim _ _ _ S); lia|lia| |apply zlen_nonneg| | |].
    - rewrite (s_nents _ _ _ S k ltac:(lia)). replace (k <? k) with false by lia. replace (k =? 0) with false by lia. reflexivity.
    - rewrite Ed', (s_family _ _ _ S). exact L'.
    - rewrite Ed'. reflexivity.
    - rewrite Ed'. cbn [adj_codes]. destruct (Z.eqb_spec k 1) as [E|E]; [exact (proj2 (C1 E))|]. destruct (C2 ltac:(lia)) as (cs & cs' & _ & -> & _). eauto. }
  rewrite ES. cbn [bind]. set (a := with_adj _ _ _ _) in *. assert (a_nents a k = zlen (maps k)) as Ek by (cbn; rewrite Z.eqb_refl; reflexivity). rewrite Ek.
  pose proof (s_valid _ _ _ S) as (_ & L4 & _). destruct (zset_in_range (M_Tags.t_nents (m_tags new)) k (zlen (maps k)) ltac:(lia)) as (ns & Ens). rewrite Ens. cbn [bind]. eexists. split; [reflexivity|]. cbn [m_adj m_tags M_Tags.t_nents M_Tags.t_dim t_tags].
  assert (forall d, 0 <= d <= 3 -> a_nents a d = if d =? k then zlen (maps k) else a_nents (m_adj new) d) as EN by reflexivity.
  split; [rewrite (s_tdim _ _ _ S); reflexivity|]. split; [|split; [exact (s_family _ _ _ S)|split; [exact (s_dim _ _ _ S)|split; [exact EN|split; [rewrite (zset_zlen _ _ _ _ Ens); exact L4|]]]]].
  - rewrite zfromto_snoc by lia. rewrite map_app. rewrite (run_app _ _ _ _ (s_run _ _ _ S)). cbn [map]. rewrite (run_cons _ _ _ _ (set_event _ _ _ _ ES)). reflexivity.
  - intros d Hd. rewrite (EN d Hd). destruct (Z.eqb_spec d k) as [->|Ne]; [apply (zset_get_eq _ _ _ _ Ens)|]. rewrite (zset_get_ne _ _ _ _ _ Ens) by congruence. exact (s_tnents _ _ _ S d Hd).
Qed.

Lemma finish_step k old adj nts tags : 0 <= k <= D -> ready T old ->
  run_aevents m0 (map (fun d => SetEnts d (down' T maps d)) (zfromto 1 (k + 1))) = Ok (Some adj) -> a_family adj = F -> a_dim adj = D ->
  (forall d, 0 <= d <= 3 -> a_nents adj d = if (d <? k + 1) || (d =? 0) then zlen (maps d) else -1) -> nts = tags ->
  valid tags -> M_Tags.t_dim tags = D -> (forall d, 0 <= d <= 3 -> zget (M_Tags.t_nents tags) d = Ok (a_nents adj d)) ->
  (forall d, k + 1 <= d -> tags_at tags d = []) -> (forall d, 0 <= d < k + 1 -> Forall2 (carries (maps d)) (tags_at tm d) (tags_at tags d)) -> State (k + 1) old (mk_tagged adj tags).
Proof. intros. split; assumption. Qed.

Lemma dims_ok : forall n k old new, k = D + 1 - Z.of_nat n -> 0 <= k -> State k old new -> forall lows, (1 <= k -> lows = inv T maps (k - 1)) ->
  exists old' new', unmap_dims c old tm new lows maps (zfromto k (D + 1)) = Ok (Some new') /\ State (D + 1) old' new'.
Proof.
  pose proof (v_dim T HT) as HD. induction n as [|n IH]; intros k old new Ek Hk S lows HLo.
  - rewrite zfromto_nil by lia. exists old, new. split; [reflexivity|]. replace (D + 1) with k by lia. exact S.
  - rewrite zfromto_cons by lia. cbn [unmap_dims]. pose proof (s_old _ _ _ S) as R. pose proof (inv_ok T HT maps HP k ltac:(lia)) as (EI & _).
    assert (M_MeshAdj.check_dim2 old k = Ok tt) as EC by (apply check_dim2_ok; [rewrite (i_dim T old (proj1 R)); lia|apply (proj2 R); lia]).
    pose proof (ready_nents T old k R ltac:(lia)) as EN. destruct (Z.ltb_spec 0 k) as [Hpos|H0].
    + rewrite (HLo ltac:(lia)). destruct (set_step k old new ltac:(lia) S) as (new1 & E1 & EM & ER & EF & ED & ENt & L4 & ET). rewrite E1. unfold bindo. cbn [bind fst snd].
      assert (forall d, 0 <= d <= 3 -> a_nents (m_adj new1) d = if (d <? k + 1) || (d =? 0) then zlen (maps d) else -1) as EN1.
      { intros d Hd. rewrite (ENt d Hd). destruct (Z.eqb_spec d k) as [->|Ne]; [replace (k <? k + 1) with true by lia; reflexivity|]. rewrite (s_nents _ _ _ S d Hd). replace (d <? k + 1) with (d <? k) by lia. reflexivity. }
      assert (forall d, tags_at (m_tags new1) d = tags_at (m_tags new) d) as TA by (intros d; unfold tags_at; rewrite EM; reflexivity).
      assert (valid (m_tags new1)) as V1. { pose proof (s_valid _ _ _ S) as (V1 & V2 & V3 & V4). split; [rewrite EM; cbn; lia|]. split; [exact L4|]. split; [rewrite EM; exact V3|]. intros d. rewrite TA. split; [apply V4|]. intros NE. destruct (proj2 (V4 d) NE) as [B1 B2].
        rewrite (s_tdim _ _ _ S) in B1. split; [rewrite EM; exact B1|]. unfold nents_at. rewrite (ET d ltac:(lia)), (ENt d ltac:(lia)). destruct (Z.eqb_spec d k); [apply zlen_nonneg|]. unfold nents_at in B2. rewrite (s_tnents _ _ _ S d ltac:(lia)) in B2. exact B2. }
      assert (a_nents (m_adj new1) k = zlen (maps k)) as ENk by (rewrite (ENt k ltac:(lia)), Z.eqb_refl; reflexivity).
      destruct (well_valid T tm HT HW) as [V N]. pose proof HW as (W1 & W2 & W3 & W4 & W5). destruct (W5 k ltac:(lia)) as (_ & tg & Etg & Mg & _ & Hg). assert (tags_at tm k = tg) as Eg by (unfold tags_at; rewrite Etg; reflexivity).
      destruct (unmap_tags_ok (maps k) (t_nents T k) (proj2 (proj1 HP k ltac:(lia))) tm V k ltac:(lia) (N k ltac:(lia)) (v_nents T HT k ltac:(lia)) ltac:(rewrite Eg; exact Hg) ltac:(rewrite Eg; exact Mg) (m_tags new1) V1) as (tags & E & V' & [A1 A2] & F2 & O).
      { rewrite EM. cbn. lia. } { unfold nents_at. rewrite (ET k ltac:(lia)). exact ENk. } { intros d Hd. rewrite TA. apply (s_after _ _ _ S). lia. }
      rewrite E. cbn [bind]. rewrite EC. cbn [bind]. rewrite EN, EI. cbn [bind].
      apply (IH (k + 1)); [lia|lia| |intros _; f_equal; lia]. apply (finish_step k old (m_adj new1) tags tags); try assumption; try lia; try reflexivity.
      * rewrite A1, EM. reflexivity.
      * intros d Hd. rewrite A2. exact (ET d Hd).
      * intros d Hd. rewrite O by lia. rewrite TA. apply (s_after _ _ _ S). lia.
      * intros d Hd. destruct (Z.eq_dec d k) as [->|Ne]; [exact F2|]. rewrite O by exact Ne. rewrite TA. apply (s_before _ _ _ S). lia.
    + assert (k = 0) as Ek0 by lia. assert (Z.of_nat n = D) as En by lia. clear Ek. subst k. unfold bindo. cbn [bind fst snd]. assert (a_nents (m_adj new) 0 = zlen (maps 0)) as EN0 by (rewrite (s_nents _ _ _ S 0 ltac:(lia)); reflexivity).
      destruct (tags_step 0 old new ltac:(lia) S ltac:(intros; exact EN0) ltac:(rewrite EN0; apply zlen_nonneg)) as (tags & E & V' & D' & N' & A' & B'). rewrite E. cbn [bind]. rewrite EC. cbn [bind]. rewrite EN, EI. cbn [bind].
      apply (IH (0 + 1)); [lia|lia| |intros _; reflexivity]. apply (finish_step 0 old (m_adj new) tags tags); try assumption; try lia; try reflexivity.
      * exact (s_run _ _ _ S).
      * exact (s_family _ _ _ S).
      * exact (s_dim _ _ _ S).
      * intros d Hd. rewrite (s_nents _ _ _ S d Hd). destruct (Z.eqb_spec d 0) as [->|Ne]; [reflexivity|]. replace (d <? 0) with false by lia. replace (d <? 0 + 1) with false by lia. reflexivity.
Qed.
End loop.

Lemma carries_well (l : list Z) n tags tags' : Forall2 (carries l) tags tags' ->
  (forall t, In t tags -> tag_name t <> [] /\ 0 <= tag_ncomps t <= 127 /\ In (tag_type t) [OMEGA_H_I8; OMEGA_H_I32; OMEGA_H_I64; OMEGA_H_F64] /\ exists a, tag_array t = Some a /\ zlen a = n * tag_ncomps t) ->
  map tag_name tags' = map tag_name tags /\ zlen tags' = zlen tags /\
  forall t, In t tags' -> tag_name t <> [] /\ 0 <= tag_ncomps t <= 127 /\ In (tag_type t) [OMEGA_H_I8; OMEGA_H_I32; OMEGA_H_I64; OMEGA_H_F64] /\ exists a, tag_array t = Some a /\ zlen a = zlen l * tag_ncomps t.
Proof.
  intros F. induction F as [|t t' ts ts' (C1 & C2 & C3 & a & a' & C4 & C5 & C6 & _) _ IH]; intros H; [split; [reflexivity|]; split; [reflexivity|]; intros ? []|].
  destruct IH as (I1 & I2 & I3). { intros x Hx. apply H. right. exact Hx. } split; [cbn [map]; congruence|]. split; [rewrite !zlen_cons; congruence|]. intros x [<-|Hx]; [|exact (I3 x Hx)].
  destruct (H t (or_introl eq_refl)) as (H1 & H2 & H3 & _). rewrite C1, C2, C3. split; [exact H1|]. split; [exact H2|]. split; [exact H3|]. exists a'. split; [exact C5|exact C6].
Qed.

Lemma unmapped c T m maps : valid_topology T -> mesh_of T (m_adj m) -> well_tagged T (m_tags m) -> picks T maps ->
  exists m', unmap_mesh c m maps = Ok (Some m') /\ mesh_of (T' T maps) (m_adj m') /\ well_tagged (T' T maps) (m_tags m') /\ tags_carried (t_dim T) maps (m_tags m) (m_tags m').
Proof.
  intros HT HM HW HP. pose proof (v_dim T HT) as HD. pose proof (mesh_ready T _ HT HM) as R. unfold unmap_mesh, copy_meta. rewrite (i_family T _ (proj1 R)), (i_dim T _ (proj1 R)). unfold new_mesh at 1.
  replace (1 <=? t_dim T) with true by lia. replace (t_dim T <=? 3) with true by lia. cbn [check bind]. rewrite <- (zfromto_0 (t_dim T + 1)).
  set (n0 := mk_tagged _ _). assert (State T maps (m_tags m) 0 (m_adj m) n0) as S0.
  { split; cbn [n0 m_adj m_tags a_family a_dim a_nents M_Tags.t_dim M_Tags.t_nents t_tags]; try reflexivity; try assumption.
    - intros d Hd. destruct (Z.eqb_spec d 0) as [->|Ne]; [reflexivity|]. replace (d <? 0) with false by lia. reflexivity.
    - apply untagged_valid. split; [exact HD|]. split; reflexivity.
    - intros d Hd. assert (d = 0 \/ d = 1 \/ d = 2 \/ d = 3) as [->|[->|[->| ->]]] by lia; reflexivity.
    - intros d _. apply untagged_valid. split; [exact HD|]. split; reflexivity.
    - intros d Hd. lia. }
  destruct (dims_ok T HT maps HP c (m_tags m) HW (Z.to_nat (t_dim T + 1)) 0 (m_adj m) n0 ltac:(lia) ltac:(lia) S0 [] ltac:(lia)) as (old' & m' & E & S). exists m'. split; [exact E|].
  destruct (well_valid T _ HT HW) as [V N]. pose proof HW as (W1 & W2 & W3 & W4 & W5). pose proof (s_valid _ _ _ _ _ _ S) as VS.
  assert (forall d, 0 <= d <= t_dim T -> exists tags tags', zget (t_tags (m_tags m)) d = Ok tags /\ zget (t_tags (m_tags m')) d = Ok tags' /\ Forall2 (carries (maps d)) tags tags') as TC.
  { intros d Hd. exists (tags_at (m_tags m) d), (tags_at (m_tags m') d). split; [apply tags_at_ok; [exact V|lia]|]. split; [apply tags_at_ok; [exact VS|rewrite (s_tdim _ _ _ _ _ _ S); lia]|]. apply (s_before _ _ _ _ _ _ S). lia. }
  split; [|split; [|exact TC]].
  - exists (m0 T maps), (map (fun d => SetEnts d (down' T maps d)) (zfromto 1 (t_dim T + 1))). split; [|split; [|split; [exact (s_run _ _ _ _ _ _ S)|]]].
    + unfold new_mesh. cbn [T' t_dim t_family t_nents]. replace (1 <=? t_dim T) with true by lia. replace (t_dim T <=? 3) with true by lia. reflexivity.
    + intros d a H. apply in_map_iff in H as (x & Ex & _). injection Ex as <- <-. reflexivity.
    + intros d Hd. cbn [T' t_dim] in Hd. rewrite (s_nents _ _ _ _ _ _ S d ltac:(lia)). replace (d <? t_dim T + 1) with true by lia. apply zlen_nonneg.
  - split; [exact (s_tdim _ _ _ _ _ _ S)|]. pose proof VS as (_ & L1 & L2 & VT). split; [exact L1|]. split; [exact L2|]. split.
    + intros d Hd. cbn [T' t_dim] in Hd. pose proof (s_after _ _ _ _ _ _ S d ltac:(lia)) as EA. unfold tags_at in EA. destruct (zget_in_range (t_tags (m_tags m')) d ltac:(lia)) as (x & Ex). rewrite Ex in EA. rewrite Ex, EA. reflexivity.
    + intros d Hd. cbn [T' t_dim] in Hd. split. { rewrite (s_tnents _ _ _ _ _ _ S d ltac:(lia)), (s_nents _ _ _ _ _ _ S d ltac:(lia)). replace (d <? t_dim T + 1) with true by lia. reflexivity. }
      destruct (TC d Hd) as (tags & tags' & Et & Et' & F2). exists tags'. split; [exact Et'|]. destruct (W5 d Hd) as (_ & tg & Etg & Mg & ND & Hg). rewrite Et in Etg. injection Etg as <-. destruct (carries_well _ _ _ _ F2 Hg) as (C1 & C2 & C3).
      split; [lia|]. split; [rewrite C1; exact ND|]. exact C3.
Qed.
