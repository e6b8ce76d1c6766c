(** Classification by given entities. *)
From Verif Require Import Prelude M_Array P_Dist P_Dist3 P_Unique M_Map P_Map M_Template S_Template P_Template M_Align S_Align P_Align M_Adj S_Adj P_Adj M_Graph S_Graph P_Graph S_Unique M_Match S_Match P_Match P_Transit S_Across M_MeshAdj S_MeshAdj P_MeshAdj P_MeshAdj2 P_MeshAdj3 M_Build S_Build P_Build P_Box M_Class S_Class P_Class P_Class2.
Local Open Scope Z_scope.

Lemma vert_up T c m d : valid_topology T -> ready T m -> 1 <= d <= t_dim T -> (exists o, ask_up c m 0 d = Ok o) /\
  forall r, ask_up c m 0 d = Ok (Some r) -> ready T (fst r) /\ is_up (element_degree (t_family T) d 0) (t_nents T 0) (t_verts T d) (snd r).
Proof.
  intros V R Hd. pose proof (v_dim T V) as HD. assert (answerable T 0 d) as HA by (split; [lia|]; split; [lia|]; left; lia).
  unfold ask_up. destruct (Z.ltb_spec 0 d); [|lia]. cbn [check bind]. split.
  - destruct (ask_good T V false c ltac:(discriminate) 6 m 0 d R HA) as (o & E & _); [|exists o; exact E]. unfold rank. destruct (Z.ltb_spec d 0); [lia|]. destruct (Z.ltb_spec 0 d); lia.
  - intros r E. destruct (ask_inv T V c 6 m 0 d r (proj1 R) E) as [I VA]. split.
    + split; [exact I|]. intros k Hk. destruct (ask_keeps 6 c m 0 d _ E) as (_ & N & _). rewrite N. apply R, Hk.
    + destruct (up_facts T V 0 d ltac:(lia) ltac:(lia)) as (dn & up & Ed & Eu & _ & LU & _). rewrite val_up in VA by lia. assert (up = snd r) as -> by congruence.
      destruct (down_facts T V d 0 ltac:(lia) ltac:(lia)) as (dn' & Ed' & Md & _). assert (dn' = dn) as -> by congruence. unfold means_down in Md. cbn [Z.eqb] in Md. subst dn. cbn [adj_ab2b adj_codes] in LU.
      destruct LU as (L1 & L2 & _ & L3). split; [exact L1|]. split; [exact L2|exact L3].
Qed.

(** the entities found are those described *)
Lemma named T c m d eqv2v names : valid_topology T -> ready T m -> 0 <= d <= t_dim T -> describes T d eqv2v names -> exists o,
  (if d =? a_dim m then Ok (Some (m, zrange (a_nents m d)))
        else if d =? 0 then Ok (Some (m, eqv2v))
        else ev2v <~ ask_down c m d 0 ;;
             v2e <~ ask_up c (fst ev2v) 0 d ;;
             f <- find_matches (a_family m) d eqv2v (adj_ab2b (snd ev2v)) (snd v2e) ;;
             Ok (Some (fst v2e, fst f))) = Ok o /\ forall r, o = Some r -> ready T (fst r) /\ snd r = names.
Proof.
  intros V R Hd (ND & NR & DS). pose proof (v_dim T V) as HD. rewrite (i_dim T m (proj1 R)), (i_family T m (proj1 R)), (ready_nents T m d R Hd). destruct (Z.eqb_spec d (t_dim T)) as [->|N1].
  - eexists. split; [reflexivity|]. intros r E. injection E as <-. cbn [fst snd]. split; [exact R|]. symmetry. apply DS.
  - destruct (Z.eqb_spec d 0) as [->|N0].
    + eexists. split; [reflexivity|]. intros r E. injection E as <-. cbn [fst snd]. split; [exact R|]. symmetry. exact DS.
    + cbv zeta in DS. set (deg := element_degree (t_family T) d 0) in *. destruct DS as (DL & DV & DM). unfold ask_down. destruct (Z.ltb_spec 0 d); [|lia]. cbn [check bind].
      destruct (down_answer T c m d 0 V R ltac:(lia) ltac:(lia)) as (m1 & dn & E1 & R1 & Md). unfold bindo at 1. rewrite E1. cbn [bind fst snd]. unfold means_down in Md. cbn [Z.eqb] in Md. subst dn. cbn [adj_ab2b].
      destruct (vert_up T c m1 d V R1 ltac:(lia)) as [(o & Eo) K]. unfold bindo. rewrite Eo. cbn [bind]. destruct o as [[m2 v2e]|]; [|exists None; split; [reflexivity|discriminate]]. destruct (K _ Eo) as [R2 IU]. cbn [fst snd] in *.
      destruct (v_verts T V d ltac:(lia)) as (VL & VD & VB). fold deg in VL, VD, IU. assert (2 <= deg <= 4) as Hdeg by (apply low_degree; lia).
      destruct (find_matches_total (t_family T) d eqv2v (t_verts T d) v2e (zlen names) (t_nents T d) (t_nents T 0) ltac:(lia) DL VL VD IU DV) as [FM _].
      destruct FM as (a2b & codes & Ef & L1 & L2 & FM). { intros a ra Hr. destruct (DM a ra Hr) as (e & _ & M1 & M2). exists e. split; [exact M1|exact M2]. }
      rewrite Ef. cbn [bind fst snd]. eexists. split; [reflexivity|]. intros r E. injection E as <-. cbn [fst snd]. split; [exact R2|].
      apply list_eq_zget; [exact L1|]. intros a Ha. rewrite L1 in Ha. pose proof (row_is_tuple deg eqv2v (zlen names) a ltac:(lia) DL Ha) as Hr. fold deg in FM.
      destruct (FM a _ Hr) as (b & code & rb & A1 & _ & _ & A4 & A5). destruct (DM a _ Hr) as (e & B1 & _ & B3). rewrite A1, B1. f_equal. apply B3. exists rb. split; [exact A4|]. eapply polygon_spec; [exact Hdeg|apply A4|exact A5].
Qed.

Lemma described_len T d eqv2v names : valid_topology T -> 0 <= d <= t_dim T -> describes T d eqv2v names -> zlen eqv2v = zlen names * (if d =? 0 then 1 else element_degree (t_family T) d 0).
Proof.
  intros V Hd (_ & _ & DS). pose proof (v_dim T V) as HD. pose proof (v_nents T V d Hd) as VN. destruct (Z.eqb_spec d (t_dim T)) as [E|].
  - destruct DS as [-> DL]. rewrite zlen_zrange by exact VN. destruct (Z.eqb_spec d 0); [lia|exact DL].
  - destruct (Z.eqb_spec d 0); [subst names; lia|]. apply DS.
Qed.
Lemma equal_order_ok T c m t d eqv2v ids names : valid_topology T -> mesh_of T m -> 0 <= d <= t_dim T -> t_family T = OMEGA_H_SIMPLEX \/ d <= 1 -> describes T d eqv2v names -> zlen ids = zlen names ->
  exists o, classify_equal_order c m t d eqv2v ids = Ok o /\ forall m' t', o = Some (m', t') ->
    (forall i, i <> d -> c_dims t' i = c_dims t i /\ c_ids t' i = c_ids t i) /\
    (forall a e id, zget names a = Ok e -> zget ids a = Ok id -> has_class t' d e (d, id)) /\
    (forall e, 0 <= e < t_nents T d -> ~ In e names -> has_class t' d e (t_dim T, -1)).
Proof.
  intros V M Hd HF DS LI. pose proof (mesh_ready T m V M) as R. pose proof (v_dim T V) as HD. pose proof (v_nents T V d Hd) as VN. destruct (named T c m d eqv2v names V R Hd DS) as (o & Eo & K). unfold classify_equal_order. unfold bindo at 1. rewrite Eo. cbn [bind].
  destruct o as [[m1 eq2e]|]; [|exists None; split; [reflexivity|discriminate]]. destruct (K _ eq_refl) as [R1 EN]. cbn [fst snd] in *. subst eq2e.
  pose proof (described_len T d eqv2v names V Hd DS) as DL. pose proof (zlen_nonneg names) as LN.
  assert (Z.quot (zlen eqv2v) (d + 1) = zlen names) as ->.
  { replace (if d =? 0 then 1 else element_degree (t_family T) d 0) with (d + 1) in DL; [rewrite DL; apply Z.quot_mul; lia|]. destruct (Z.eqb_spec d 0) as [->|]; [reflexivity|].
    assert (d = 1 \/ d = 2 \/ d = 3) as [->|[->| ->]] by lia; destruct HF as [->|HF]; try reflexivity; try lia. destruct (t_family T); reflexivity. }
  unfold filled at 1. destruct (Z.ltb_spec (zlen names) 0); [lia|]. cbn [bind]. rewrite (i_dim T m (proj1 R)), (ready_nents T m d R Hd). destruct DS as (ND & NR & _).
  destruct (map_onto_spec (repeat d (Z.to_nat (zlen names))) names (t_nents T d) (t_dim T) 1 ltac:(lia) VN) as (r1 & E1 & L1 & G1 & F1); [rewrite repeat_zlen; lia|exact ND|exact NR|]. rewrite E1. cbn [bind].
  destruct (map_onto_spec ids names (t_nents T d) (-1) 1 ltac:(lia) VN) as (r2 & E2 & L2 & G2 & F2); [lia|exact ND|exact NR|]. rewrite E2. cbn [bind].
  unfold add_class. rewrite (ready_nents T m1 d R1 Hd), L1, L2, Z.mul_1_r, Z.eqb_refl. cbn [check bind]. eexists. split; [reflexivity|]. intros m' t' E. injection E as <- <-. split; [|split].
  - intros i Hi. cbn [c_dims c_ids]. destruct (Z.eqb_spec i d); [contradiction|]. auto.
  - intros a e id Ha Hi. exists r1, r2. cbn [c_dims c_ids fst snd]. rewrite Z.eqb_refl. split; [reflexivity|]. split; [reflexivity|]. pose proof (zget_bounds _ _ _ Ha) as B.
    specialize (G1 a e 0 Ha ltac:(lia)). specialize (G2 a e 0 Ha ltac:(lia)). rewrite !Z.mul_1_r, !Z.add_0_r in G1, G2. rewrite G1, G2. split; [|exact Hi]. apply zget_ok. split; [lia|]. apply nth_error_repeat. lia.
  - intros e He NI. exists r1, r2. cbn [c_dims c_ids fst snd]. rewrite Z.eqb_refl. split; [reflexivity|]. split; [reflexivity|].
    specialize (F1 e 0 He NI ltac:(lia)). specialize (F2 e 0 He NI ltac:(lia)). rewrite !Z.mul_1_r, !Z.add_0_r in F1, F2. auto.
Qed.
(** quadrilaterals and hexahedra *)
Lemma equal_order_aborts T c m t ev2v ids : valid_topology T -> mesh_of T m -> t_family T = OMEGA_H_HYPERCUBE -> (t_dim T = 2 /\ 3 <= t_nents T 2) \/ (t_dim T = 3 /\ 1 <= t_nents T 3) ->
  zlen ev2v = t_nents T (t_dim T) * element_degree (t_family T) (t_dim T) 0 -> classify_equal_order c m t (t_dim T) ev2v ids = Abort.
Proof.
  intros V M HF HN HL. pose proof (mesh_ready T m V M) as R. pose proof (v_dim T V) as HD. unfold classify_equal_order. rewrite (i_dim T m (proj1 R)), Z.eqb_refl. unfold bindo. cbn [bind fst snd]. rewrite (ready_nents T m (t_dim T) R) by lia. rewrite HF in HL.
  set (n := t_nents T (t_dim T)) in *.
  assert (exists q, Z.quot (zlen ev2v) (t_dim T + 1) = q /\ n < q /\ 0 <= n) as (q & -> & Hq & Hn).
  { unfold n in *. destruct HN as [[E N]|[E N]]; rewrite E in *; cbn in HL; rewrite HL; eexists; (split; [reflexivity|]); rewrite Z.quot_div_nonneg by lia; split; lia. }
  unfold filled at 1. destruct (Z.ltb_spec q 0); [lia|]. cbn [bind]. unfold map_onto. unfold filled at 1. destruct (Z.ltb_spec (n * 1) 0); [lia|]. cbn [bind]. rewrite !repeat_zlen by lia. unfold check at 1. destruct (Z.geb_spec (n * 1) q); [lia|]. reflexivity.
Qed.
