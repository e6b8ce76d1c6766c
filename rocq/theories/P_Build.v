From Verif Require Import Prelude M_Array P_Array M_Par M_Graph M_Scan M_Sort M_Map P_Map M_Template S_Template P_Template
  M_Align S_Align P_Align M_Unique S_Unique P_Unique M_Adj S_Adj P_Adj M_Match S_Match P_Match M_Transit S_Transit P_Transit
  M_ArrayOps S_ArrayOps P_ArrayOps M_MeshAdj S_MeshAdj P_MeshAdj P_MeshAdj2 P_MeshAdj3 M_Build S_Build.
Local Open Scope Z_scope.

(** ** the edges of a face of an element are edges of the element *)
Lemma face_edge_template f w u : 0 <= w < element_degree f 3 2 -> 0 <= u < element_degree f 2 1 ->
  exists u', 0 <= u' < element_degree f 3 1 /\
  let a := element_down_template f 3 2 w (element_down_template f 2 1 u 0) in let b := element_down_template f 3 2 w (element_down_template f 2 1 u 1) in
  side_verts f 3 1 u' = [a; b] \/ side_verts f 3 1 u' = [b; a].
Proof.
  intros Hw Hu. assert (forallb (fun f => forallb (fun w => forallb (fun u =>
    let a := element_down_template f 3 2 w (element_down_template f 2 1 u 0) in let b := element_down_template f 3 2 w (element_down_template f 2 1 u 1) in
    existsb (fun u' => leqb (side_verts f 3 1 u') [a; b] || leqb (side_verts f 3 1 u') [b; a]) (zrange (element_degree f 3 1)))
    (zrange (element_degree f 2 1))) (zrange (element_degree f 3 2))) families = true) as H by (vm_compute; reflexivity).
  rewrite forallb_forall in H. specialize (H f (in_families f)). pose proof (sweep _ _ H w Hw) as H1. cbv beta in H1. pose proof (sweep _ _ H1 u Hu) as H2. cbv beta zeta in H2.
  apply existsb_exists in H2 as (u' & Hu' & H2). apply in_zrange in Hu'. exists u'. split; [exact Hu'|]. cbv zeta. apply orb_prop in H2 as [H2|H2]; apply leqb_spec in H2; auto.
Qed.
Lemma face_edge f hv2v fv2v h w j u frow row : is_side f 3 2 hv2v h w frow -> row_is (element_degree f 2 0) fv2v j frow -> is_side f 2 1 fv2v j u row ->
  exists u' row', is_side f 3 1 hv2v h u' row' /\ same_polygon row row'.
Proof.
  intros S3 Rf S2. pose proof S3 as (hrow & R & Hw & _). pose proof S2 as (fr & Rf' & Hu & F2).
  destruct (face_edge_template f w u Hw Hu) as (u' & Hu' & HV). cbv zeta in HV.
  assert (nverts f 1 = 2) as N1 by (rewrite nverts_eq by lia; apply vert_degree).
  destruct (side_entry f 2 1 fv2v j u row frow 0 S2 Rf ltac:(lia)) as (a & A1 & A2). destruct (side_entry f 2 1 fv2v j u row frow 1 S2 Rf ltac:(lia)) as (b & B1 & B2).
  assert (row = [a; b]) as ->.
  { apply Forall2_len in F2. unfold side_verts in F2. rewrite map_length, zrange_length, N1 in F2. destruct row as [|x [|y [|? ?]]]; cbn in F2; try discriminate. change (Ok x = Ok a) in A1. change (Ok y = Ok b) in B1. congruence. }
  assert (forall x, 0 <= x < 2 -> 0 <= element_down_template f 2 1 u x < nverts f 2) as HT.
  { intros x Hx. rewrite nverts_eq by lia. apply down_range; lia. }
  destruct (side_entry f 3 2 hv2v h w frow hrow _ S3 R (HT 0 ltac:(lia))) as (a' & A3 & A4). destruct (side_entry f 3 2 hv2v h w frow hrow _ S3 R (HT 1 ltac:(lia))) as (b' & B3 & B4).
  assert (a' = a) as -> by congruence. assert (b' = b) as -> by congruence.
  destruct HV as [HV|HV].
  - exists u', [a; b]. split; [|apply same_polygon_refl]. exists hrow. split; [exact R|]. split; [exact Hu'|]. rewrite HV. repeat constructor; assumption.
  - exists u', [b; a]. split; [|right; exists [], [b; a]; split; reflexivity]. exists hrow. split; [exact R|]. split; [exact Hu'|]. rewrite HV. repeat constructor; assumption.
Qed.

(** ** lists of sides found by find_unique *)
Definition lists_ok (f : family) (d : Z) (l : list Z) (n nv : Z) : Prop :=
  zlen l = n * element_degree f d 0 /\ rows_distinct (element_degree f d 0) l /\ (forall v, In v l -> 0 <= v < nv).
Lemma side_len f high low hv2v h u row : 1 <= low <= 2 -> is_side f high low hv2v h u row -> zlen row = element_degree f low 0.
Proof.
  intros Hl (hr & _ & _ & F). apply Forall2_len in F. unfold zlen. rewrite <- F. rewrite <- (nverts_eq f low) by lia. unfold side_verts. rewrite map_length, zrange_length.
  pose proof (low_degree f low Hl). rewrite nverts_eq by lia. lia.
Qed.
Lemma unique_sides f dim d ev2v ne nv : 1 <= d < dim -> dim <= 3 -> lists_ok f dim ev2v ne nv ->
  exists l n, find_unique ev2v f dim d = Ok l /\ lists_ok f d l n nv /\ polygons_distinct (element_degree f d 0) l /\ sides_once f dim d ev2v l.
Proof.
  intros Hd Hdim (L & D & V). destruct (find_unique_spec ev2v f dim d ne Hd Hdim L D) as (l & n & E & Ln & K1 & K2 & K3). exists l, n. split; [exact E|].
  assert (2 <= element_degree f d 0 <= 4) as Hdeg by (apply low_degree; lia).
  assert (forall e row, row_is (element_degree f d 0) l e row -> exists h u, is_side f dim d ev2v h u row) as K1' by (intros e row R; destruct (K1 e row R) as (h & u & H & _); eauto).
  split; [|split; [exact K3|]].
  - split; [exact Ln|]. split.
    + intros e row R. destruct (K1' e row R) as (h & u & Sd). eapply side_row_NoDup; [| |exact D|exact Sd]; lia.
    + intros v Hv. apply V. apply In_zget in Hv as (k & Hk). pose proof (zget_bounds _ _ _ Hk) as B. set (deg := element_degree f d 0) in *.
      pose proof (Z.div_mod k deg ltac:(lia)) as Eq. pose proof (Z.mod_pos_bound k deg ltac:(lia)) as Hm.
      assert (0 <= k / deg < n) as Hq by (split; [apply Z.div_pos; lia|apply Z.div_lt_upper_bound; lia]).
      pose proof (row_is_tuple deg l n (k / deg) ltac:(lia) Ln Hq) as R. destruct (K1' _ _ R) as (h & u & Sd). eapply side_value; [exact Sd|lia|lia|].
      replace k with (k / deg * deg + k mod deg) in Hk by lia. rewrite (row_zget _ _ _ _ _ R Hm) in Hk. eapply zget_In, Hk.
  - split; [exact K1'|]. intros h u row Sd. destruct (K2 h u row Sd) as (e & row' & R & P).
    assert (matches (element_degree f d 0) l row e) as M. { exists row'. split; [exact R|]. apply same_polygon_sym; [|exact P]. rewrite (side_len f dim d ev2v h u row ltac:(lia) Sd). exact Hdeg. }
    exists e. split; [exact M|]. eapply polygons_distinct_unique; [exact Hdeg|exact K3|exact M].
Qed.

(** ** requests made while building *)
Lemma ask_cached c m from to a : 0 <= from <= a_dim m -> 0 <= to <= a_dim m -> 0 <= a_nents m from -> 0 <= a_nents m to -> a_adjs m from to = Some a -> forall k, ask_within (S k) c m from to = Ok (Some (m, a)).
Proof. intros H1 H2 H3 H4 H k. cbn [ask_within]. rewrite !check_dim2_ok by assumption. cbn [bind]. rewrite H. reflexivity. Qed.

Lemma ask_step k c m from to : ask_within (S k) c m from to =
  (_ <- check_dim2 m from ;; _ <- check_dim2 m to ;;
    match a_adjs m from to with
    | Some a => Ok (Some (m, a))
    | None => derived <~ derive_adj (ask_within k c) c m from to ;; Ok (Some (with_adj (fst derived) from to (snd derived), snd derived))
    end).
Proof. reflexivity. Qed.
(** the vertices of a dimension are in the mesh: asking for the upward adjacency of vertices *)
Lemma ask_up_verts c m d l n : 1 <= d <= 2 -> d <= a_dim m -> 0 <= a_nents m d -> 0 <= a_nents m 0 -> a_adjs m d 0 = Some (mk_adj [] l None) -> a_adjs m 0 d = None ->
  lists_ok (a_family m) d l n (a_nents m 0) ->
  exists o, ask_up c m 0 d = Ok o /\ (forall r, o = Some r -> exists up, r = (with_adj m 0 d up, up) /\ is_up (element_degree (a_family m) d 0) (a_nents m 0) l up) /\
  (forall up, invert_adj (mk_adj [] l None) (element_degree (a_family m) d 0) (a_nents m 0) (c_mem c 0 d) (c_first c 0 d) (c_second c 0 d) = Ok (Some up) -> o <> None).
Proof.
  intros Hd Hdim N1 N0 A1 A2 (L & D & V). unfold ask_up. destruct (Z.ltb_spec 0 d); [|lia]. cbn [check bind]. unfold ask_adj. rewrite ask_step.
  rewrite !check_dim2_ok by lia. cbn [bind]. rewrite A2. unfold derive_adj. rewrite check_dim_ok by lia. cbn [bind]. rewrite check_dim2_ok by lia. cbn [bind].
  destruct (Z.ltb_spec 0 d); [|lia]. rewrite (ask_cached c m d 0 _ ltac:(lia) ltac:(lia) N1 N0 A1 4%nat). unfold bindo at 2. cbn [bind fst snd].
  destruct (invert_is_up (element_degree (a_family m) d 0) n (a_nents m 0) l (c_mem c 0 d) (c_first c 0 d) (c_second c 0 d) (low_degree _ _ Hd) N0 L D V) as (o & E & Ho).
  rewrite E. destruct o as [up|]; unfold bindo; cbn [bind fst snd]; (eexists; split; [reflexivity|]).
  - split; [|intros; discriminate]. intros r Er. injection Er as <-. exists up. auto.
  - split; [intros; discriminate|]. intros up H1. discriminate.
Qed.

(** the vertices of faces are derived *)
Lemma ask_face_verts c m fv ev ab codes nf : 2 <= a_dim m -> 0 <= a_nents m 2 -> 0 <= a_nents m 1 -> 0 <= a_nents m 0 ->
  a_adjs m 1 0 = Some (mk_adj [] ev None) -> a_adjs m 2 1 = Some (mk_adj [] ab (Some codes)) -> a_adjs m 2 0 = None ->
  zlen fv = nf * element_degree (a_family m) 2 0 -> rows_distinct (element_degree (a_family m) 2 0) fv -> zlen ab = nf * element_degree (a_family m) 2 1 ->
  reflects (a_family m) 2 1 fv ev ab codes ->
  ask_adj c m 2 0 = Ok (Some (with_adj m 2 0 (mk_adj [] fv None), mk_adj [] fv None)).
Proof.
  intros Hd N2 N1 N0 A1 A2 A3 L D La R. unfold ask_adj. rewrite ask_step. rewrite !check_dim2_ok by lia. cbn [bind]. rewrite A3. unfold derive_adj. rewrite check_dim_ok by lia. cbn [bind]. rewrite check_dim2_ok by lia. cbn [bind].
  change (2 <? 0) with false. change (0 <? 2) with true. cbn [check bind]. change (0 + 1) with 1. change (1 <? 2) with true. cbn [check bind]. 
  rewrite (ask_cached c m 2 1 _ ltac:(lia) ltac:(lia) N2 N1 A2 4%nat). unfold bindo at 2. cbn [bind fst snd].
  rewrite (ask_cached c m 1 0 _ ltac:(lia) ltac:(lia) N1 N0 A1 4%nat). unfold bindo at 2. cbn [bind fst snd].
  rewrite (transit_verts_spec (a_family m) 2 fv ev ab codes nf ltac:(lia) L D La R). reflexivity.
Qed.

(** ** set_ents of what was matched *)
Lemma set_ents_ok m d a n : 1 <= d <= a_dim m -> d <= 3 -> a_nents m d = -1 -> 0 <= n -> zlen (adj_ab2b a) = n * element_degree (a_family m) d (d - 1) -> adj_a2ab a = [] ->
  (if d =? 1 then adj_codes a = None else exists cs, adj_codes a = Some cs) -> set_ents m d a = Ok (with_adj (with_nents m d n) d (d - 1) a).
Proof.
  intros Hd Hd3 Hn Hn0 L A0 Hc. assert (0 < element_degree (a_family m) d (d - 1)) as P by (apply degree_pos; lia).
  unfold set_ents, has_ents. rewrite check_dim_ok by lia. cbn [bind]. rewrite Hn. change (check (negb (0 <=? -1))) with (Ok tt). cbn [bind].
  unfold divide_no_remainder, check at 1. destruct (Z.eqb_spec (element_degree (a_family m) d (d - 1)) 0); [lia|]. cbn [negb bind]. rewrite L, Z.rem_mul, Z.quot_mul by lia. cbn [Z.eqb check bind].
  unfold add_adj. rewrite !check_dim2_ok by (cbn; rewrite ?Z.eqb_refl; lia). cbn [bind]. rewrite check_dim_ok by (cbn; lia). cbn [bind]. rewrite A0. cbn [zlen length Z.of_nat Z.eqb check bind].
  assert ((if d - 1 =? 0 then check (match adj_codes a with None => true | _ => false end) else check (match adj_codes a with Some _ => true | None => false end)) = Ok tt) as ->.
  { destruct (Z.eqb_spec (d - 1) 0) as [E|E]; destruct (Z.eqb_spec d 1) as [E'|E']; try lia; [rewrite Hc; reflexivity|]. destruct Hc as (cs & ->). reflexivity. }
  cbn [bind]. cbn [with_nents a_nents a_family]. rewrite Z.eqb_refl. rewrite L. unfold check. rewrite Z.eqb_refl. reflexivity.
Qed.
Lemma tag_ok b d gs : 0 <= d <= a_dim (b_mesh b) -> 0 <= a_nents (b_mesh b) d -> zlen gs = a_nents (b_mesh b) d ->
  tag_globals b d gs = Ok (mk_built (b_mesh b) (fun i => if i =? d then Some gs else b_globals b i)).
Proof. intros H1 H2 H3. unfold tag_globals. rewrite check_dim2_ok by assumption. cbn [bind]. rewrite H3. unfold check. rewrite Z.eqb_refl. reflexivity. Qed.

Lemma lists_pos f d l n nv : 1 <= d <= 3 -> lists_ok f d l n nv -> 0 <= n.
Proof. intros Hd (L & _ & _). pose proof (zlen_nonneg l). assert (0 < element_degree f d 0) by (apply degree_pos; lia). nia. Qed.
Lemma divide_ok (l : list Z) f d n : 1 <= d <= 3 -> zlen l = n * element_degree f d 0 -> divide_no_remainder (zlen l) (element_degree f d 0) = Ok n.
Proof.
  intros Hd L. assert (0 < element_degree f d 0) by (apply degree_pos; lia). unfold divide_no_remainder, check. destruct (Z.eqb_spec (element_degree f d 0) 0); [lia|]. cbn [negb bind].
  rewrite L, Z.rem_mul, Z.quot_mul by lia. reflexivity.
Qed.

(** one step of the loop: edges *)
Lemma add_edges_ok c b ev n : 1 <= a_dim (b_mesh b) -> 0 <= a_nents (b_mesh b) 0 -> a_nents (b_mesh b) 1 = -1 -> lists_ok (a_family (b_mesh b)) 1 ev n (a_nents (b_mesh b) 0) ->
  add_ents2verts c b 1 ev = Ok (Some (mk_built (with_adj (with_nents (b_mesh b) 1 n) 1 0 (mk_adj [] ev None)) (fun i => if i =? 1 then Some (zrange n) else b_globals b i))).
Proof.
  intros Hd N0 N1 HL. pose proof (lists_pos _ 1 _ _ _ ltac:(lia) HL) as Hn. destruct HL as (L & _ & _).
  unfold add_ents2verts. rewrite (divide_ok ev _ 1 n ltac:(lia) L). cbn [bind Z.eqb Pos.eqb].
  rewrite (set_ents_ok (b_mesh b) 1 (mk_adj [] ev None) n ltac:(lia) ltac:(lia) N1 Hn L eq_refl eq_refl). cbn [bind].
  rewrite tag_ok; cbn [b_mesh b_globals with_adj with_nents a_dim a_nents Z.eqb Pos.eqb]; [reflexivity|lia|lia|rewrite zlen_zrange; lia].
Qed.

(** one step: faces or regions *)
Lemma add_high c b d hv lv nh nl m1 : let m := b_mesh b in 2 <= d <= a_dim m -> d <= 3 -> a_nents m d = -1 -> 0 <= a_nents m (d - 1) -> 0 <= a_nents m 0 ->
  ask_adj c m (d - 1) 0 = Ok (Some (m1, mk_adj [] lv None)) -> a_family m1 = a_family m -> a_dim m1 = a_dim m -> a_nents m1 = a_nents m ->
  a_adjs m1 (d - 1) 0 = Some (mk_adj [] lv None) -> a_adjs m1 0 (d - 1) = None ->
  lists_ok (a_family m) (d - 1) lv nl (a_nents m 0) -> lists_ok (a_family m) d hv nh (a_nents m 0) ->
  (forall h u row, is_side (a_family m) d (d - 1) hv h u row -> exists l, matches (element_degree (a_family m) (d - 1) 0) lv row l /\ forall l', matches (element_degree (a_family m) (d - 1) 0) lv row l' -> l' = l) ->
  exists o, add_ents2verts c b d hv = Ok o /\
  (forall b', o = Some b' -> exists up hl codes, ask_up c m1 0 (d - 1) = Ok (Some (with_adj m1 0 (d - 1) up, up)) /\
     b' = mk_built (with_adj (with_nents (with_adj m1 0 (d - 1) up) d nh) d (d - 1) (mk_adj [] hl (Some codes))) (fun i => if i =? d then Some (zrange nh) else b_globals b i) /\
     set_ents (with_adj m1 0 (d - 1) up) d (mk_adj [] hl (Some codes)) = Ok (b_mesh b') /\
     zlen hl = nh * element_degree (a_family m) d (d - 1) /\ zlen codes = zlen hl /\ reflects (a_family m) d (d - 1) hv lv hl codes) /\
  (forall up, invert_adj (mk_adj [] lv None) (element_degree (a_family m) (d - 1) 0) (a_nents m 0) (c_mem c 0 (d - 1)) (c_first c 0 (d - 1)) (c_second c 0 (d - 1)) = Ok (Some up) -> o <> None).
Proof.
  cbv zeta. set (m := b_mesh b). set (f := a_family m). intros Hd Hd3 Nd Nl N0 HA Ef Ed En A1 A2 Ll Lh HM. pose proof (lists_pos _ d _ _ _ ltac:(lia) Lh) as Hnh.
  destruct (ask_up_verts c m1 (d - 1) lv nl ltac:(lia) ltac:(lia)) as (o & Eo & Ho & Hf); try (rewrite ?En; assumption); [rewrite Ef, En; exact Ll|].
  unfold add_ents2verts. fold m. fold f. rewrite (divide_ok hv f d nh ltac:(lia) (proj1 Lh)). cbn [bind]. destruct (Z.eqb_spec d 1); [lia|]. cbv zeta.
  rewrite HA. unfold bindo at 1. cbn [bind fst snd]. rewrite Eo. destruct o as [r|].
  - destruct (Ho r eq_refl) as (up & -> & HU). rewrite Ef, En in HU. fold f in HU. unfold bindo. cbn [bind fst snd adj_ab2b].
    destruct (reflect_v2l_spec hv lv up f d (d - 1) nh nl (a_nents m 0) ltac:(lia) Hd3 (proj1 Lh) (proj1 Ll) (proj1 (proj2 Ll)) (proj2 (proj2 Lh)) HU) as [K _].
    destruct (K HM) as (hl & codes & E & L1 & L2 & R). rewrite E. cbn [bind fst snd].
    assert (set_ents (with_adj m1 0 (d - 1) up) d (mk_adj [] hl (Some codes)) = Ok (with_adj (with_nents (with_adj m1 0 (d - 1) up) d nh) d (d - 1) (mk_adj [] hl (Some codes)))) as ES.
    { apply set_ents_ok; cbn [with_adj a_dim a_nents a_family adj_ab2b adj_a2ab adj_codes]; rewrite ?Ef, ?Ed, ?En; try lia; try assumption; try reflexivity. destruct (Z.eqb_spec d 1); [lia|]. eauto. }
    rewrite ES. cbn [bind]. rewrite tag_ok; cbn [b_mesh b_globals with_adj with_nents a_dim a_nents]; [|rewrite Ed; lia|rewrite Z.eqb_refl; lia|rewrite Z.eqb_refl, zlen_zrange; lia].
    cbn [bind]. eexists. split; [reflexivity|]. split; [|intros; discriminate]. intros b' Eb. injection Eb as <-. exists up, hl, codes. split; [reflexivity|]. split; [reflexivity|]. split; [exact ES|].
    split; [exact L1|]. split; [lia|]. intros h u row Sd. destruct (R h u row Sd) as (l & c0 & rl & K1 & K2 & K3 & K4 & fl & r & -> & Hr). exists l, (make_code fl r 0), rl. repeat (split; [assumption|]). apply code_small; [apply low_degree; lia|assumption].
  - unfold bindo. cbn [bind]. eexists. split; [reflexivity|]. split; [intros; discriminate|]. intros up Hup. rewrite Ef, En in Hf. intros _. eapply Hf; [exact Hup|reflexivity].
Qed.

(** ** the whole *)
Lemma sorted_zrange be n : covers be (n - 1) -> 0 <= n -> is_sorted be (zrange n) = Ok true.
Proof.
  intros Hc Hn. destruct (is_sorted_spec be (zrange n)) as (r & E & H); [rewrite zlen_zrange by lia; exact Hc|]. rewrite E. f_equal. apply H. intros i x y Hx Hy.
  pose proof (zget_bounds _ _ _ Hx) as B1. pose proof (zget_bounds _ _ _ Hy) as B2. rewrite zlen_zrange in B1, B2 by lia. rewrite zget_zrange in Hx, Hy by lia. injection Hx as <-. injection Hy as <-. lia.
Qed.

Definition globals_of (T : topology) (b : built) : Prop := forall d, 0 <= d <= t_dim T -> b_globals b d = Some (zrange (t_nents T d)).
Definition outcome (c : chance) (be : backend) (f : family) (dim : Z) (ev2v : list Z) (nverts : Z) : Prop :=
  exists o, build_from_elems2verts c be f dim ev2v nverts = Ok o /\
  (forall b, o = Some b -> exists T, topology_of f dim ev2v nverts T /\ mesh_of T (b_mesh b) /\ globals_of T b) /\
  ((forall d l, 1 <= d < dim -> find_unique ev2v f dim d = Ok l ->
     exists up, invert_adj (mk_adj [] l None) (element_degree f d 0) nverts (c_mem c 0 d) (c_first c 0 d) (c_second c 0 d) = Ok (Some up)) -> o <> None).

Lemma vertices_ok f dim n : 1 <= dim <= 3 -> 0 <= n ->
  let m := mk_amesh f dim (fun d => if d =? 0 then n else -1) (fun _ _ => None) in
  new_mesh f dim n = Ok m /\ build_verts_from_globals f dim (zrange n) = Ok (mk_built m (fun i => if i =? 0 then Some (zrange n) else None)).
Proof.
  intros Hd Hn. cbv zeta. assert (new_mesh f dim n = Ok (mk_amesh f dim (fun d => if d =? 0 then n else -1) (fun _ _ => None))) as E.
  { unfold new_mesh, check. destruct (Z.leb_spec 1 dim); [|lia]. destruct (Z.leb_spec dim 3); [|lia]. reflexivity. }
  split; [exact E|]. unfold build_verts_from_globals. rewrite zlen_zrange by lia. rewrite E. cbn [bind]. rewrite tag_ok; cbn; [reflexivity|lia|lia|rewrite zlen_zrange; lia].
Qed.
Lemma set_event m d a m' : set_ents m d a = Ok m' -> run_aevent m (SetEnts d a) = Ok (Some m').
Proof. intros E. cbn [run_aevent]. rewrite E. reflexivity. Qed.
Lemma ask_event c m from to r : ask_adj c m from to = Ok (Some r) -> run_aevent m (Ask from to c) = Ok (Some (fst r)).
Proof. intros E. cbn [run_aevent]. rewrite E. reflexivity. Qed.
Lemma up_event c m from to r : ask_up c m from to = Ok (Some r) -> run_aevent m (Ask from to c) = Ok (Some (fst r)).
Proof. unfold ask_up. intros E. apply bind_ok in E as (_ & _ & E). apply ask_event, E. Qed.
Lemma run_cons m e m' es : run_aevent m e = Ok (Some m') -> run_aevents m (e :: es) = run_aevents m' es.
Proof. intros E. cbn [run_aevents]. rewrite E. reflexivity. Qed.

Section build.
Context (c : chance) (be : backend) (f : family) (ev2v : list Z) (nv ne : Z) (Hnv : 0 <= nv) (Hbe : covers be (nv - 1)).

Lemma build_1 : lists_ok f 1 ev2v ne nv -> outcome c be f 1 ev2v nv.
Proof.
  intros HL. pose proof (lists_pos _ 1 _ _ _ ltac:(lia) HL) as Hne. destruct (vertices_ok f 1 nv ltac:(lia) Hnv) as [E0 EV]. set (m0 := mk_amesh _ _ _ _) in *.
  unfold outcome, build_from_elems2verts, build_ents_from_elems2verts. rewrite EV. cbn [bind b_mesh a_dim m0]. change (zfromto 1 1) with (@nil Z). unfold bindo at 1. cbn [add_sides bind].
  pose proof (add_edges_ok c (mk_built m0 (fun i => if i =? 0 then Some (zrange nv) else None)) ev2v ne ltac:(cbn; lia) Hnv eq_refl HL) as EA. fold m0. rewrite EA. unfold bindo at 1. cbn [bind].
  rewrite (sorted_zrange be nv Hbe Hnv). cbn [bind]. eexists. split; [reflexivity|]. split; [|intros; discriminate]. intros b Eb. injection Eb as <-. cbn [b_mesh b_globals].
  set (T := mk_topology f 1 (fun d => if d =? 1 then ne else nv) (fun _ => ev2v) (fun _ => mk_adj [] ev2v None)). exists T. split; [|split].
  - split; [|repeat split; intros; lia]. split; cbn; try lia.
    + intros d Hd. destruct (d =? 1); lia.
    + intros d Hd. assert (d = 1) as -> by lia. exact HL.
    + reflexivity.
  - exists m0, [SetEnts 1 (mk_adj [] ev2v None)]. split; [exact E0|]. split; [intros d a [H|[]]; injection H as <- <-; reflexivity|]. split.
    + rewrite (run_cons _ _ _ _ (set_event _ _ _ _ (set_ents_ok m0 1 (mk_adj [] ev2v None) ne ltac:(cbn; lia) ltac:(lia) eq_refl Hne (proj1 HL) eq_refl eq_refl))). reflexivity.
    + intros d Hd. cbn in Hd |- *. destruct (Z.eqb_spec d 1); [lia|]. destruct (Z.eqb_spec d 0); lia.
  - intros d Hd. cbn in Hd |- *. destruct (Z.eqb_spec d 1); [reflexivity|]. destruct (Z.eqb_spec d 0); [reflexivity|lia].
Qed.

Lemma build_2 : lists_ok f 2 ev2v ne nv -> outcome c be f 2 ev2v nv.
Proof.
  intros HL. pose proof (lists_pos _ 2 _ _ _ ltac:(lia) HL) as Hne. destruct (vertices_ok f 2 nv ltac:(lia) Hnv) as [E0 EV]. set (m0 := mk_amesh _ _ _ _) in *.
  destruct (unique_sides f 2 1 ev2v ne nv ltac:(lia) ltac:(lia) HL) as (l1 & n1 & F1 & HL1 & P1 & S1). pose proof (lists_pos _ 1 _ _ _ ltac:(lia) HL1) as Hn1.
  unfold outcome, build_from_elems2verts, build_ents_from_elems2verts. rewrite EV. cbn [bind b_mesh a_dim m0]. change (zfromto 1 2) with [1]. cbn [add_sides b_mesh a_dim a_family m0]. rewrite F1. cbn [bind].
  pose proof (add_edges_ok c (mk_built m0 (fun i => if i =? 0 then Some (zrange nv) else None)) l1 n1 ltac:(cbn; lia) Hnv eq_refl HL1) as EA. fold m0. rewrite EA. unfold bindo. cbn [bind].
  match type of EA with _ = Ok (Some ?b) => set (b1 := b) in * end.
  assert (ask_adj c (b_mesh b1) (2 - 1) 0 = Ok (Some (b_mesh b1, mk_adj [] l1 None))) as EK by (apply ask_cached; cbn; lia || reflexivity).
  destruct (add_high c b1 2 ev2v l1 ne n1 (b_mesh b1)) as (o & Eo & Ho & Hf); [cbn; lia|lia|reflexivity|exact Hn1|exact Hnv|exact EK|reflexivity|reflexivity|reflexivity|reflexivity|reflexivity|exact HL1|exact HL| |].
  { intros h u row Sd. exact (proj2 S1 h u row Sd). }
  rewrite Eo. destruct o as [b2|]; [|cbn [bind]; eexists; split; [reflexivity|]; split; [intros; discriminate|intros HF; destruct (HF 1 l1 ltac:(lia) F1) as (up & Hup); exfalso; exact (Hf up Hup eq_refl)]].
  destruct (Ho b2 eq_refl) as (up & hl & codes & EU & -> & ES & Lh & Lc & R). cbn [bind]. rewrite (sorted_zrange be nv Hbe Hnv). cbn [bind].
  eexists. split; [reflexivity|]. split; [|intros; discriminate]. intros b Eb. injection Eb as <-.
  set (T := mk_topology f 2 (fun d => if d =? 2 then ne else if d =? 1 then n1 else nv) (fun d => if d =? 2 then ev2v else l1) (fun d => if d =? 2 then mk_adj [] hl (Some codes) else mk_adj [] l1 None)). exists T. split; [|split].
  - split; [|split; [reflexivity|split; [reflexivity|split; [reflexivity|split; [reflexivity|]]]]]. 2:{ intros d Hd. assert (d = 1) as -> by lia. exact S1. } split; cbn; try lia.
    + intros d Hd. destruct (d =? 2); [lia|]. destruct (d =? 1); lia.
    + intros d Hd. assert (d = 1 \/ d = 2) as [->| ->] by lia; [exact HL1|exact HL].
    + reflexivity.
    + intros d Hd. assert (d = 2) as -> by lia. exists hl, codes. split; [reflexivity|]. split; [exact Lh|]. split; [exact Lc|exact R].
  - exists m0, [SetEnts 1 (mk_adj [] l1 None); Ask 0 1 c; SetEnts 2 (mk_adj [] hl (Some codes))]. split; [exact E0|]. split; [intros d a H; cbn in H; destruct H as [H|[H|[H|[]]]]; [injection H as <- <-; reflexivity|discriminate|injection H as <- <-; reflexivity]|]. split.
    + rewrite (run_cons _ _ _ _ (set_event _ _ _ _ (set_ents_ok m0 1 (mk_adj [] l1 None) n1 ltac:(cbn; lia) ltac:(lia) eq_refl Hn1 (proj1 HL1) eq_refl eq_refl))).
      rewrite (run_cons _ _ _ _ (up_event _ _ _ _ _ EU)). cbn [fst]. rewrite (run_cons _ _ _ _ (set_event _ _ _ _ ES)). reflexivity.
    + intros d Hd. cbn in Hd |- *. destruct (Z.eqb_spec d 2); [lia|]. destruct (Z.eqb_spec d 1); [lia|]. destruct (Z.eqb_spec d 0); lia.
  - intros d Hd. cbn in Hd |- *. destruct (Z.eqb_spec d 2); [reflexivity|]. destruct (Z.eqb_spec d 1); [reflexivity|]. destruct (Z.eqb_spec d 0); [reflexivity|lia].
Qed.

Lemma build_3 : lists_ok f 3 ev2v ne nv -> outcome c be f 3 ev2v nv.
Proof.
  intros HL. pose proof (lists_pos _ 3 _ _ _ ltac:(lia) HL) as Hne. destruct (vertices_ok f 3 nv ltac:(lia) Hnv) as [E0 EV]. set (m0 := mk_amesh _ _ _ _) in *.
  destruct (unique_sides f 3 1 ev2v ne nv ltac:(lia) ltac:(lia) HL) as (l1 & n1 & F1 & HL1 & P1 & S1). pose proof (lists_pos _ 1 _ _ _ ltac:(lia) HL1) as Hn1.
  destruct (unique_sides f 3 2 ev2v ne nv ltac:(lia) ltac:(lia) HL) as (l2 & n2 & F2 & HL2 & P2 & S2). pose proof (lists_pos _ 2 _ _ _ ltac:(lia) HL2) as Hn2.
  unfold outcome, build_from_elems2verts, build_ents_from_elems2verts. rewrite EV. cbn [bind b_mesh a_dim m0]. change (zfromto 1 3) with [1; 2]. cbn [add_sides b_mesh a_dim a_family m0]. rewrite F1. cbn [bind].
  pose proof (add_edges_ok c (mk_built m0 (fun i => if i =? 0 then Some (zrange nv) else None)) l1 n1 ltac:(cbn; lia) Hnv eq_refl HL1) as EA. fold m0. rewrite EA. unfold bindo. cbn [bind].
  match type of EA with _ = Ok (Some ?b) => set (b1 := b) in * end. change (a_family (b_mesh b1)) with f. change (a_dim (b_mesh b1)) with 3. rewrite F2. cbn [bind].
  assert (ask_adj c (b_mesh b1) (2 - 1) 0 = Ok (Some (b_mesh b1, mk_adj [] l1 None))) as EK by (apply ask_cached; cbn; lia || reflexivity).
  destruct (add_high c b1 2 l2 l1 n2 n1 (b_mesh b1)) as (o & Eo & Ho & Hf); [cbn; lia|lia|reflexivity|exact Hn1|exact Hnv|exact EK|reflexivity|reflexivity|reflexivity|reflexivity|reflexivity|exact HL1|exact HL2| |].
  { intros h u row Sd. change (a_family (b_mesh b1)) with f in *. change (2 - 1) with 1 in *. destruct Sd as (fr & Rf & Hu & FF). destruct (proj1 S2 h fr Rf) as (h3 & w & S3).
    destruct (face_edge f ev2v l2 h3 w h u fr row S3 Rf) as (u' & row' & S3' & Pr); [exists fr; auto|]. destruct (proj2 S1 h3 u' row' S3') as (e & M & _).
    assert (zlen row = 2) as Lr. { rewrite (side_len f 2 1 l2 h u row ltac:(lia)); [apply vert_degree|exists fr; auto]. }
    assert (matches (element_degree f 1 0) l1 row e) as M'. { destruct M as (r1 & R1 & Pm). exists r1. split; [exact R1|]. assert (zlen r1 = 2) as L1 by (rewrite (proj1 R1); apply vert_degree).
      eapply same_polygon_trans; [lia|exact Pm|]. apply same_polygon_sym; [lia|exact Pr]. }
    exists e. split; [exact M'|]. eapply polygons_distinct_unique; [rewrite vert_degree; lia|exact P1|exact M']. }
  rewrite Eo. destruct o as [b2|]; [|cbn [bind]; eexists; split; [reflexivity|]; split; [intros; discriminate|intros HF; destruct (HF 1 l1 ltac:(lia) F1) as (up & Hup); exfalso; exact (Hf up Hup eq_refl)]].
  destruct (Ho b2 eq_refl) as (up & hl & codes & EU & -> & ES & Lh & Lc & R). clear Hf Ho Eo. change (a_family (b_mesh b1)) with f in *. cbn [bind].
  match goal with |- context [add_ents2verts c ?b 3 ev2v] => set (b2 := b) in * end.
  assert (ask_adj c (b_mesh b2) 2 0 = Ok (Some (with_adj (b_mesh b2) 2 0 (mk_adj [] l2 None), mk_adj [] l2 None))) as EF.
  { apply (ask_face_verts c (b_mesh b2) l2 l1 hl codes n2); [cbn; lia|exact Hn2|exact Hn1|exact Hnv|reflexivity|reflexivity|reflexivity|exact (proj1 HL2)|exact (proj1 (proj2 HL2))|exact Lh|exact R]. }
  destruct (add_high c b2 3 ev2v l2 ne n2 (with_adj (b_mesh b2) 2 0 (mk_adj [] l2 None))) as (o & Eo & Ho & Hf); [cbn; lia|lia|reflexivity|exact Hn2|exact Hnv|exact EF|reflexivity|reflexivity|reflexivity|reflexivity|reflexivity|exact HL2|exact HL| |].
  { intros h u row Sd. exact (proj2 S2 h u row Sd). }
  rewrite Eo. destruct o as [b3|]; [|cbn [bind]; eexists; split; [reflexivity|]; split; [intros; discriminate|intros HF; destruct (HF 2 l2 ltac:(lia) F2) as (up' & Hup); exfalso; exact (Hf up' Hup eq_refl)]].
  destruct (Ho b3 eq_refl) as (up' & hl' & codes' & EU' & -> & ES' & Lh' & Lc' & R'). cbn [bind]. rewrite (sorted_zrange be nv Hbe Hnv). cbn [bind].
  eexists. split; [reflexivity|]. split; [|intros; discriminate]. intros b Eb. injection Eb as <-.
  set (T := mk_topology f 3 (fun d => if d =? 3 then ne else if d =? 2 then n2 else if d =? 1 then n1 else nv) (fun d => if d =? 3 then ev2v else if d =? 2 then l2 else l1)
    (fun d => if d =? 3 then mk_adj [] hl' (Some codes') else if d =? 2 then mk_adj [] hl (Some codes) else mk_adj [] l1 None)). exists T. split; [|split].
  - split; [|split; [reflexivity|split; [reflexivity|split; [reflexivity|split; [reflexivity|]]]]]. 2:{ intros d Hd. assert (d = 1 \/ d = 2) as [->| ->] by lia; [exact S1|exact S2]. } split; cbn; try lia.
    + intros d Hd. destruct (d =? 3); [lia|]. destruct (d =? 2); [lia|]. destruct (d =? 1); lia.
    + intros d Hd. assert (d = 1 \/ d = 2 \/ d = 3) as [->|[->| ->]] by lia; [exact HL1|exact HL2|exact HL].
    + reflexivity.
    + intros d Hd. assert (d = 2 \/ d = 3) as [->| ->] by lia.
      * exists hl, codes. split; [reflexivity|]. split; [exact Lh|]. split; [exact Lc|exact R].
      * exists hl', codes'. split; [reflexivity|]. split; [exact Lh'|]. split; [exact Lc'|exact R'].
  - exists m0, [SetEnts 1 (mk_adj [] l1 None); Ask 0 1 c; SetEnts 2 (mk_adj [] hl (Some codes)); Ask 2 0 c; Ask 0 2 c; SetEnts 3 (mk_adj [] hl' (Some codes'))]. split; [exact E0|].
    split; [intros d a H; cbn in H; decompose [or] H; try contradiction; try discriminate; match goal with E : SetEnts _ _ = SetEnts _ _ |- _ => injection E as <- <-; reflexivity end|]. split.
    + rewrite (run_cons _ _ _ _ (set_event _ _ _ _ (set_ents_ok m0 1 (mk_adj [] l1 None) n1 ltac:(cbn; lia) ltac:(lia) eq_refl Hn1 (proj1 HL1) eq_refl eq_refl))).
      rewrite (run_cons _ _ _ _ (up_event _ _ _ _ _ EU)). cbn [fst]. rewrite (run_cons _ _ _ _ (set_event _ _ _ _ ES)).
      rewrite (run_cons _ _ _ _ (ask_event _ _ _ _ _ EF)). cbn [fst]. rewrite (run_cons _ _ _ _ (up_event _ _ _ _ _ EU')). cbn [fst]. rewrite (run_cons _ _ _ _ (set_event _ _ _ _ ES')). reflexivity.
    + intros d Hd. cbn in Hd |- *. destruct (Z.eqb_spec d 3); [lia|]. destruct (Z.eqb_spec d 2); [lia|]. destruct (Z.eqb_spec d 1); [lia|]. destruct (Z.eqb_spec d 0); lia.
  - intros d Hd. cbn in Hd |- *. destruct (Z.eqb_spec d 3); [reflexivity|]. destruct (Z.eqb_spec d 2); [reflexivity|]. destruct (Z.eqb_spec d 1); [reflexivity|]. destruct (Z.eqb_spec d 0); [reflexivity|lia].
Qed.
End build.

Lemma build_outcome c be f dim ev2v nv : proper_elements f dim ev2v nv -> covers be (nv - 1) -> outcome c be f dim ev2v nv.
Proof.
  intros (Hd & Hnv & (ne & L) & D & V) Hbe. assert (lists_ok f dim ev2v ne nv) as HL by (repeat split; assumption || apply V; assumption).
  assert (dim = 1 \/ dim = 2 \/ dim = 3) as [->|[->| ->]] by lia; [apply build_1 with ne|apply build_2 with ne|apply build_3 with ne]; assumption.
Qed.

(** what the theorems say *)
Lemma built_right c be f dim ev2v nv b : proper_elements f dim ev2v nv -> covers be (nv - 1) -> build_from_elems2verts c be f dim ev2v nv = Ok (Some b) ->
  exists T, topology_of f dim ev2v nv T /\ mesh_of T (b_mesh b) /\ forall d, 0 <= d <= dim -> b_globals b d = Some (zrange (t_nents T d)).
Proof.
  intros HP Hb E. destruct (build_outcome c be f dim ev2v nv HP Hb) as (o & Eo & K & _). assert (o = Some b) as -> by congruence. destruct (K b eq_refl) as (T & HT & HM & HG). exists T. split; [exact HT|]. split; [exact HM|].
  intros d Hd. apply HG. destruct HT as (_ & _ & E3 & _). lia.
Qed.
Lemma built_total c be f dim ev2v nv : proper_elements f dim ev2v nv -> covers be (nv - 1) -> exists o, build_from_elems2verts c be f dim ev2v nv = Ok o.
Proof. intros HP Hb. destruct (build_outcome c be f dim ev2v nv HP Hb) as (o & Eo & _). eauto. Qed.
Lemma built_finishes be f dim ev2v nv mem : proper_elements f dim ev2v nv -> covers be (nv - 1) ->
  exists first second, exists b, build_from_elems2verts (mk_chance mem first second (fun _ _ => false)) be f dim ev2v nv = Ok (Some b).
Proof.
  intros HP Hb. pose proof HP as (Hd & Hnv & (ne & L) & D & V).
  assert (exists F, forall d, 0 <= d < Z.of_nat (Z.to_nat dim) -> forall l, 1 <= d -> find_unique ev2v f dim d = Ok l ->
    exists up, invert_adj (mk_adj [] l None) (element_degree f d 0) nv (mem 0 d) (fst (F d)) (snd (F d)) = Ok (Some up)) as (F & HF).
  { apply (finite_choice ([] : list nat, [] : list nat) (fun d sc => forall l, 1 <= d -> find_unique ev2v f dim d = Ok l -> exists up, invert_adj (mk_adj [] l None) (element_degree f d 0) nv (mem 0 d) (fst sc) (snd sc) = Ok (Some up))).
    intros d Hdd. destruct (Z_le_dec 1 d) as [H1|H1]; [|exists ([], []); intros; lia].
    destruct (unique_sides f dim d ev2v ne nv ltac:(lia) ltac:(lia)) as (l & n & El & (L1 & L2 & L3) & _ & _); [repeat split; assumption || apply V; assumption|].
    assert (0 < element_degree f d 0) as Hp by (apply degree_pos; lia).
    destruct (invert_adj_finishes (mk_adj [] l None) (element_degree f d 0) nv (mem 0 d) Hp Hnv L3 (distinct_no_repeats _ l n Hp L1 L2) ltac:(discriminate)) as (s1 & s2 & up & E).
    exists (s1, s2). intros l' _ El'. assert (l' = l) as -> by congruence. exists up. exact E. }
  exists (fun _ d => fst (F d)), (fun _ d => snd (F d)). set (c := mk_chance _ _ _ _). destruct (build_outcome c be f dim ev2v nv HP Hb) as (o & Eo & _ & K).
  destruct o as [b|]; [exists b; exact Eo|]. exfalso. apply K; [|reflexivity]. intros d l Hdd El. apply (HF d ltac:(lia) l ltac:(lia) El).
Qed.
(** requests to the mesh that was built *)
Lemma built_answers T m c from to : valid_topology T -> mesh_of T m -> answerable T from to ->
  exists o, ask_adj c m from to = Ok o /\ forall r, o = Some r -> means T from to (snd r).
Proof.
  intros HT (m0 & es & E0 & HB & HR & HC) HA. destruct (asked_total T HT m0 es m from to c E0 HB HR HC HA) as (o & Eo). exists o. split; [exact Eo|]. intros r ->. eapply asked_right; eassumption.
Qed.
(** elements that do not fill whole rows are refused *)
Lemma built_refused c be f dim ev2v nv : 1 <= dim <= 3 -> 0 <= nv -> Z.rem (zlen ev2v) (element_degree f dim 0) <> 0 -> build_from_elems2verts c be f dim ev2v nv = Abort.
Proof.
  intros Hd Hnv HR. destruct (vertices_ok f dim nv Hd Hnv) as [_ EV]. unfold build_from_elems2verts. rewrite EV. cbn [bind]. unfold build_ents_from_elems2verts. cbn [b_mesh a_dim].
  assert (0 < element_degree f dim 0) as Hp by (apply degree_pos; lia).
  assert (divide_no_remainder (zlen ev2v) (element_degree f dim 0) = Abort) as ED.
  { unfold divide_no_remainder, check. destruct (Z.eqb_spec (element_degree f dim 0) 0); [lia|]. cbn [negb bind]. destruct (Z.eqb_spec (Z.rem (zlen ev2v) (element_degree f dim 0)) 0); [contradiction|reflexivity]. }
  assert (dim = 1 \/ 2 <= dim) as [->|H2] by lia.
  - change (zfromto 1 1) with (@nil Z). unfold bindo. cbn [add_sides bind]. unfold add_ents2verts. cbn [b_mesh a_family]. rewrite ED. reflexivity.
  - assert (exists ds, zfromto 1 dim = 1 :: ds) as (ds & ->). { assert (dim = 2 \/ dim = 3) as [->| ->] by lia; [exists []; reflexivity|exists [2]; reflexivity]. }
    unfold bindo. cbn [add_sides b_mesh a_family a_dim]. unfold find_unique. destruct (Z.gtb_spec dim 1); [|lia]. change (1 <=? 2) with true. cbn [check bind].
    unfold check at 1. destruct (Z.eqb_spec (Z.rem (zlen ev2v) (element_degree f dim 0)) 0); [contradiction|]. reflexivity.
Qed.
