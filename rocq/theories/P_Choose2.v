(** Choosing what to collapse: the checks. *)
From Coq Require Import String Permutation Sorted.
From Verif Require Import Prelude M_Array P_Array M_Par M_Scan P_Fan S_Sort M_Sort M_Map S_Map P_Map P_Map2 M_Template S_Template P_Template M_Align S_Align P_Align M_Graph S_Graph P_Graph M_Unique S_Unique P_Unique M_Adj S_Adj P_Adj S_Transit P_Transit S_Across P_Across
  M_Match S_Match P_Match M_Tags M_MeshAdj S_MeshAdj P_MeshAdj P_MeshAdj2 P_MeshAdj3 M_Build S_Build P_Build P_Box S_Unmap P_Unmap P_Mark M_Coarsen S_Coarsen P_Dead P_Coarsen
  M_Modify S_Modify P_Modify P_Modify2 S_Swap3d M_RefineMesh S_RefineMesh S_Rebuild P_Rebuild P_Rebuild2 P_Rebuild3 P_RefineMesh1 P_RefineMesh2 P_RefineMesh4 P_RefineMesh5 P_Flip4 S_Patch P_Patch M_Collapse S_Collapse P_Collapse1 P_Collapse2 P_Collapse3 M_Choose S_Choose P_Choose1.
Local Open Scope Z_scope.

Set Default Proof Using "All".
Section asked.
Context (T : topology) (HT : valid_topology T) (HS : simplicial T) (old : amesh) (HR : ready T old).
Context (HA : forall a b, 0 <= a <= t_dim T -> 0 <= b <= t_dim T -> a <> b -> P_MeshAdj.val T a b = Ok (kept_adj old a b)).
Context (class_dim : Z -> list Z) (HCL : forall d, 0 <= d <= t_dim T -> zlen (class_dim d) = t_nents T d).
Context (marks : list Z) (HM : zlen marks = t_nents T 0).
Local Notation D := (t_dim T).
Local Notation ne := (t_nents T 1).
Local Notation ev := (t_verts T 1).
Local Notation same_class := (same_class class_dim).
Local Notation keeps_class := (keeps_class T class_dim).
Local Notation end_of := (end_of T).

Lemma two_ends k : 0 <= k < ne -> exists a b, ent_verts T 1 k [a; b] /\ zget ev (k * 2 + 0) = Ok a /\ zget ev (k * 2 + 1) = Ok b /\ a <> b /\ 0 <= a < t_nents T 0 /\ 0 <= b < t_nents T 0.
Proof.
  intros Hk. pose proof (v_dim T HT) as HD. destruct (ent_row T HT HS 1 k ltac:(lia) Hk) as (row & R). destruct (edge_row T HT HS k row R) as (a & b & -> & N). destruct (row_ends T old HA k a b R) as [E0 E1]. destruct (ent_facts T HT HS 1 k _ ltac:(lia) R) as (_ & _ & B). exists a, b. split; [exact R|]. split; [exact E0|]. split; [exact E1|]. split; [exact N|]. split; apply B; cbn; auto.
Qed.
Lemma end_iff k i v : 0 <= k < ne -> i = 0 \/ i = 1 -> zget ev (k * 2 + i) = Ok v <-> exists w, end_of k i v w.
Proof.
  intros Hk Hi. destruct (two_ends k Hk) as (a & b & R & E0 & E1 & _). pose proof (v_dim T HT) as HD. split.
  - intros E. destruct Hi as [->| ->]; [exists b; left|exists a; right]; (split; [reflexivity|]); [assert (v = a) as -> by congruence|assert (v = b) as -> by congruence]; exact R.
  - intros (w & [[-> R']|[-> R']]); pose proof (ent_unique T 1 _ _ _ ltac:(lia) R R') as E; injection E as -> ->; assumption.
Qed.
Lemma end_unique k i v w v' w' : end_of k i v w -> end_of k i v' w' -> v = v' /\ w = w'.
Proof. pose proof (v_dim T HT) as HD. intros [[-> R]|[-> R]] [[E R']|[E R']]; try discriminate; pose proof (ent_unique T 1 _ _ _ ltac:(lia) R R') as Q; injection Q as -> ->; auto. Qed.

Definition sameb (d e d' e' : Z) : bool := match zget (class_dim d) e, zget (class_dim d') e' with Ok x, Ok y => x =? y | _, _ => false end.
Lemma sameb_iff d e d' e' : sameb d e d' e' = true <-> same_class d e d' e'.
Proof.
  unfold sameb, S_Choose.same_class. split.
  - destruct (zget (class_dim d) e) as [x| |]; try discriminate. destruct (zget (class_dim d') e') as [y| |]; try discriminate. intros H. apply Z.eqb_eq in H as ->. eauto.
  - intros (x & -> & ->). apply Z.eqb_refl.
Qed.
Definition is_marked (v : Z) : bool := match zget marks v with Ok m => negb (m =? 0) | _ => false end.
Lemma marked_iff v : is_marked v = true <-> exists b, zget marks v = Ok b /\ b <> 0.
Proof.
  unfold is_marked. split.
  - destruct (zget marks v) as [m| |]; try discriminate. destruct (Z.eqb_spec m 0); [discriminate|]. eauto.
  - intros (b & -> & N). destruct (Z.eqb_spec b 0); [contradiction|reflexivity].
Qed.
Definition at_end (P : Z -> bool) (k i : Z) : bool := match zget ev (k * 2 + i) with Ok v => P v | _ => false end.
Definition A0 (k i : Z) : bool := at_end is_marked k i.
Definition A1 (k i : Z) : bool := andb (A0 k i) (at_end (fun v => sameb 0 v 1 k) k i).

Lemma codes_ok : edge_codes ev marks ne = Ok (map (encA A0) (zrange ne)).
Proof.
  unfold edge_codes. apply tabulate_map. intros k Hk. destruct (two_ends k Hk) as (a & b & _ & E0 & E1 & _ & Ra & Rb). destruct (zget_in_range marks a ltac:(lia)) as (x & Ex). destruct (zget_in_range marks b ltac:(lia)) as (y & Ey).
  cbn [foldM]. rewrite E0. cbn [bind]. rewrite Ex. cbn [bind]. rewrite E1. cbn [bind]. rewrite Ey. cbn [bind]. unfold encA, A0, at_end. rewrite E0, E1. unfold is_marked. rewrite Ex, Ey. destruct (x =? 0), (y =? 0); reflexivity.
Qed.
Lemma class_ok cands : (forall e, In e cands -> 0 <= e < ne) -> check_collapse_class ev (class_dim 0) (class_dim 1) cands (map (encA A0) cands) = Ok (map (encA A1) cands).
Proof.
  intros R. pose proof (v_dim T HT) as HD. unfold check_collapse_class. apply over_cands. intros cand e E. rewrite (at_cand A0 _ _ _ E). cbn [bind]. rewrite E. cbn [bind]. pose proof (R e (zget_In _ _ _ E)) as He. destruct (two_ends e He) as (a & b & _ & E0 & E1 & _ & Ra & Rb). rewrite E0. cbn [bind]. rewrite E1. cbn [bind].
  pose proof (HCL 0 ltac:(lia)) as L0. pose proof (HCL 1 ltac:(lia)) as L1. destruct (zget_in_range (class_dim 0) a ltac:(lia)) as (x & Ex). destruct (zget_in_range (class_dim 0) b ltac:(lia)) as (y & Ey). destruct (zget_in_range (class_dim 1) e ltac:(lia)) as (z & Ez). rewrite Ex. cbn [bind]. rewrite Ey. cbn [bind]. rewrite Ez. cbn [bind].
  f_equal. unfold encA, A1, at_end. rewrite E0, E1. unfold sameb. rewrite Ex, Ey, Ez. cbn [fold_left fst snd]. destruct (has_bit (A0 e 0) (A0 e 1)) as [-> ->]. destruct (Z.eqb_spec x y) as [->|N].
  - destruct (y =? z); cbn [negb]; rewrite ?andb_true_r, ?andb_false_r; reflexivity.
  - destruct (Z.eqb_spec x z), (Z.eqb_spec y z), (A0 e 0), (A0 e 1); reflexivity.
Qed.

(** whether the cells of dimension [d] at edge [k] have the class of their sides opposite to the end that stays *)
Definition at_cell (d i ec : Z) : bool := match adj_codes (kept_adj old 1 d) with
  | Some codes => match dead_pair d (adj_ab2b (kept_adj old 1 d)) codes (adj_ab2b (kept_adj old d (d - 1))) (1 - i) ec with Ok (c, s) => sameb (d - 1) s d c | _ => false end
  | None => false end.
Definition X (d k i : Z) : bool := match zget (adj_a2ab (kept_adj old 1 d)) k, zget (adj_a2ab (kept_adj old 1 d)) (k + 1) with Ok lo, Ok hi => forallb (at_cell d i) (zfromto lo hi) | _, _ => false end.
Lemma pair_at d k i v w codes : 2 <= d <= D -> end_of k i v w -> adj_codes (kept_adj old 1 d) = Some codes -> forall ec, in_group (adj_a2ab (kept_adj old 1 d)) k ec ->
  exists c s row srow, dead_pair d (adj_ab2b (kept_adj old 1 d)) codes (adj_ab2b (kept_adj old d (d - 1))) (1 - i) ec = Ok (c, s) /\ zget (adj_ab2b (kept_adj old 1 d)) ec = Ok c /\ ent_verts T d c row /\ In v row /\ In w row /\ ent_verts T (d - 1) s srow /\ incl srow row /\ ~ In w srow /\
    forall s' srow', ent_verts T (d - 1) s' srow' -> incl srow' row -> ~ In w srow' -> s' = s.
Proof.
  intros Hd He Ec ec Hg. pose proof (v_dim T HT) as HD. destruct (simplices T HT HS old HA) as (_ & _ & SM). destruct (SM d Hd) as (U1 & U2 & U3 & U4). rewrite (counts_in T old HA d) in U1, U3, U4 by lia. rewrite (counts_in T old HA (d - 1)) in U3 by lia. rewrite (counts_in T old HA 1) in U2 by lia.
  assert (exists a b, ent_verts T 1 k [a; b] /\ zget ev (k * 2 + 0) = Ok a /\ zget ev (k * 2 + 1) = Ok b /\ (i = 0 \/ i = 1) /\ (if i =? 0 then b else a) = w /\ (v = a /\ w = b \/ v = b /\ w = a)) as (a & b & Rk & E0 & E1 & Hi & Ew & Evw).
  { destruct He as [[-> R]|[-> R]]; destruct (row_ends T old HA k _ _ R) as [E0 E1]; [exists v, w|exists w, v]; (split; [exact R|]; split; [exact E0|]; split; [exact E1|]); cbn; auto. }
  pose proof (ent_range T HT HS 1 k _ ltac:(lia) Rk) as Hk.
  destruct (pair_ok d (t_nents T d) (t_nents T (d - 1)) ne ev (t_verts T d) (t_verts T (d - 1)) (adj_ab2b (kept_adj old d (d - 1))) (kept_adj old 1 d) ltac:(lia) U1 U2 U3 U4 codes k a b i ec Ec Hk E0 E1 Hi Hg) as (c & s & B1 & B2 & B3 & B4 & B5 & B6 & B7 & B8 & B9). cbv zeta in *. rewrite Ew in *.
  destruct (ent_row T HT HS d c ltac:(lia) B3) as (row & Rc). apply (has_row T HT HS old HA d c a ltac:(lia)) in B5 as (r1 & R1 & I1). apply (has_row T HT HS old HA d c b ltac:(lia)) in B6 as (r2 & R2 & I2). pose proof (ent_unique T d _ _ _ ltac:(lia) Rc R1) as <-. pose proof (ent_unique T d _ _ _ ltac:(lia) Rc R2) as <-.
  assert (In v row /\ In w row) as [Iv Iw] by (destruct Evw as [[-> ->]|[-> ->]]; auto).
  destruct (proj1 (side_iff T HT HS old HA d c row s Hd Rc) B7) as (y & srow & Iy & Rs & Ps). exists c, s, row, srow. split; [exact B1|]. split; [exact B2|]. split; [exact Rc|]. split; [exact Iv|]. split; [exact Iw|]. split; [exact Rs|]. split; [|split].
  - intros x Hx. apply (Permutation_in _ Ps) in Hx. apply rm_in in Hx. apply Hx.
  - intros I. apply B8. apply (has_row T HT HS old HA (d - 1) s w ltac:(lia)). eauto.
  - intros s' srow' Rs' Inc N. apply B9.
    + apply (side_iff T HT HS old HA d c row s' Hd Rc). exists w, srow'. split; [exact Iw|]. split; [exact Rs'|]. destruct (ent_facts T HT HS (d - 1) s' _ ltac:(lia) Rs') as (N1 & L1 & _). destruct (ent_facts T HT HS d c _ ltac:(lia) Rc) as (N2 & L2 & _). apply incl_same; [exact N1|apply rm_nodup, N2| |rewrite rm_len by assumption; lia]. intros x Hx. apply rm_in. split; [apply Inc, Hx|]. intros ->. contradiction.
    + intros I. apply (has_row T HT HS old HA (d - 1) s' w ltac:(lia)) in I as (r' & R' & I'). pose proof (ent_unique T (d - 1) _ _ _ ltac:(lia) Rs' R') as <-. contradiction.
Qed.
Lemma up_codes d : 2 <= d <= D -> exists codes, adj_codes (kept_adj old 1 d) = Some codes.
Proof. intros Hd. destruct (up_ok T HT HS old HA d Hd) as [(_ & codes & E & _) _]. eauto. Qed.
Lemma up_range d k : 2 <= d <= D -> 0 <= k < ne -> exists lo hi, zget (adj_a2ab (kept_adj old 1 d)) k = Ok lo /\ zget (adj_a2ab (kept_adj old 1 d)) (k + 1) = Ok hi.
Proof. intros Hd Hk. destruct (up_ok T HT HS old HA d Hd) as [_ L]. destruct (zget_in_range (adj_a2ab (kept_adj old 1 d)) k ltac:(lia)) as (lo & E). destruct (zget_in_range (adj_a2ab (kept_adj old 1 d)) (k + 1) ltac:(lia)) as (hi & E'). eauto. Qed.
Lemma X_iff d k i v w : 2 <= d <= D -> end_of k i v w -> X d k i = true <-> forall c row s srow, ent_verts T d c row -> In v row -> In w row -> ent_verts T (d - 1) s srow -> incl srow row -> ~ In w srow -> same_class (d - 1) s d c.
Proof.
  intros Hd He. pose proof (v_dim T HT) as HD. destruct (up_codes d Hd) as (codes & Ec). assert (exists a b, ent_verts T 1 k [a; b] /\ (v = a /\ w = b \/ v = b /\ w = a)) as (a & b & Rk & Evw) by (destruct He as [[-> R]|[-> R]]; eauto 6). pose proof (ent_range T HT HS 1 k _ ltac:(lia) Rk) as Hk. destruct (up_range d k Hd Hk) as (lo & hi & El & Eh).
  unfold X. rewrite El, Eh, forallb_forall. split.
  - intros H c row s srow Rc Iv Iw Rs Inc N. destruct (up_ok T HT HS old HA d Hd) as [(W & codes' & Ec' & Hu) L]. destruct (row_ends T old HA k a b Rk) as [E0 E1]. destruct (Hu k a b ltac:(lia) E0 E1) as [Ht _].
    destruct (wf_targets (mk_graph (adj_a2ab (kept_adj old 1 d)) (adj_ab2b (kept_adj old 1 d))) k) as (ts & Ets). { destruct W as (Wa & Wb & _). split; [exact Wa | exact Wb]. } { unfold nnodes. cbn [a2ab]. lia. }
    assert (In c ts) as Ic. { apply (Ht ts Ets). split; [apply (ent_range T HT HS d c row ltac:(lia) Rc)|]. split; apply (has_row T HT HS old HA d c _ ltac:(lia)); exists row; (split; [exact Rc|]); destruct Evw as [[-> ->]|[-> ->]]; assumption. }
    apply targets_split in Ets as (lo' & hi' & G1 & G2 & G3). cbn [a2ab ab2b] in *. assert (lo' = lo) as -> by congruence. assert (hi' = hi) as -> by congruence. destruct (mapM_in_inv _ _ _ _ G3 Ic) as (ec & Eec & Iec). specialize (H ec Iec). unfold at_cell in H. rewrite Ec in H.
    destruct (pair_at d k i v w codes Hd He Ec ec) as (c' & s' & row' & srow' & B1 & B2 & B3 & B4 & B5 & B6 & B7 & B8 & B9); [exists lo, hi; split; [exact El|]; split; [exact Eh|]; apply in_zfromto, Iec|]. rewrite B1 in H. assert (c' = c) as -> by congruence. pose proof (ent_unique T d _ _ _ ltac:(lia) Rc B3) as <-. rewrite (B9 s srow Rs Inc N). apply sameb_iff, H.
  - intros H ec Iec. unfold at_cell. rewrite Ec. destruct (pair_at d k i v w codes Hd He Ec ec) as (c' & s' & row' & srow' & B1 & B2 & B3 & B4 & B5 & B6 & B7 & B8 & B9); [exists lo, hi; split; [exact El|]; split; [exact Eh|]; apply in_zfromto, Iec|]. rewrite B1. apply sameb_iff. eapply H; eassumption.
Qed.
Lemma class_read d c : 0 <= d <= D -> 0 <= c < t_nents T d -> exists x, zget (class_dim d) c = Ok x. Proof. intros Hd Hc. apply zget_in_range. rewrite HCL by exact Hd. exact Hc. Qed.
Lemma exposure_dim_ok d A cands : 2 <= d <= D -> (forall e, In e cands -> 0 <= e < ne) ->
  exposure_dim (kept_adj old 1 d) (adj_ab2b (kept_adj old d (d - 1))) (class_dim d) (class_dim (d - 1)) d cands (map (encA A) cands) = Ok (map (encA (fun k i => andb (A k i) (X d k i))) cands).
Proof.
  intros Hd R. pose proof (v_dim T HT) as HD. destruct (up_codes d Hd) as (codes & Ec). unfold exposure_dim. rewrite Ec. cbn [bind]. apply over_cands. intros cand k E. rewrite (at_cand A _ _ _ E). cbn [bind]. rewrite E. cbn [bind]. pose proof (R k (zget_In _ _ _ E)) as Hk. destruct (up_range d k Hd Hk) as (lo & hi & El & Eh). rewrite El. cbn [bind]. rewrite Eh. cbn [bind].
  destruct (two_ends k Hk) as (a & b & Rk & _). unfold encA, X. rewrite El, Eh. assert (forall ec, In ec (zfromto lo hi) -> in_group (adj_a2ab (kept_adj old 1 d)) k ec) as G. { intros ec I. apply in_zfromto in I. exists lo, hi. auto. }
  revert G. generalize (A k 0) (A k 1). generalize (zfromto lo hi). clear E El Eh lo hi. induction l as [|ec l IH]; intros b0 b1 G; [cbn; rewrite !andb_true_r; reflexivity|].
  destruct (pair_at d k 0 a b codes Hd (or_introl (conj eq_refl Rk)) Ec ec (G ec (or_introl eq_refl))) as (c & s0 & row & srow0 & B1 & B2 & B3 & _ & _ & B6 & _).
  destruct (pair_at d k 1 b a codes Hd (or_intror (conj eq_refl Rk)) Ec ec (G ec (or_introl eq_refl))) as (c1 & s1 & row1 & srow1 & C1 & C2 & C3 & _ & _ & C6 & _). assert (c1 = c) as -> by congruence.
  destruct (class_read d c ltac:(lia) (ent_range T HT HS d c row ltac:(lia) B3)) as (x & Ex). destruct (class_read (d - 1) s0 ltac:(lia) (ent_range T HT HS (d - 1) s0 srow0 ltac:(lia) B6)) as (y0 & Ey0). destruct (class_read (d - 1) s1 ltac:(lia) (ent_range T HT HS (d - 1) s1 srow1 ltac:(lia) C6)) as (y1 & Ey1).
  assert (at_cell d 0 ec = (y0 =? x) /\ at_cell d 1 ec = (y1 =? x)) as [Q0 Q1]. { unfold at_cell. rewrite Ec, B1, C1. unfold sameb. rewrite Ex, Ey0, Ey1. auto. }
  cbn [foldM forallb]. rewrite B2. cbn [bind]. rewrite Ex. cbn [bind]. rewrite Q0, Q1. destruct (has_bit b0 b1) as [H0 _]. rewrite H0. 
  match goal with |- bind (bind ?u _) _ = _ => assert (u = Ok (enc (b0 && (y0 =? x)) b1)) as -> end. { destruct b0; cbn [negb]; [|reflexivity]. rewrite B1. cbn [bind fst snd]. rewrite Ey0. cbn [bind]. destruct (y0 =? x); cbn [negb]; [reflexivity|]. rewrite off0. reflexivity. }
  cbn [bind]. destruct (has_bit (b0 && (y0 =? x)) b1) as [_ H1]. rewrite H1.
  match goal with |- bind (bind ?u _) _ = _ => assert (u = Ok (enc (b0 && (y0 =? x)) (b1 && (y1 =? x)))) as -> end. { destruct b1; cbn [negb]; [|reflexivity]. rewrite C1. cbn [bind fst snd]. rewrite Ey1. cbn [bind]. destruct (y1 =? x); cbn [negb]; [reflexivity|]. rewrite off1. reflexivity. }
  cbn [bind]. rewrite IH by (intros e I; apply G; right; exact I). rewrite !andb_assoc. reflexivity.
Qed.
Lemma exposure_ok cands : (forall e, In e cands -> 0 <= e < ne) -> forall A,
  check_collapse_exposure old class_dim cands (map (encA A) cands) = Ok (map (encA (fun k i => andb (A k i) (forallb (fun d => X d k i) (zfromto 2 (D + 1))))) cands).
Proof.
  intros R. unfold check_collapse_exposure. rewrite (old_dim T old HR). assert (forall d, In d (zfromto 2 (D + 1)) -> 2 <= d <= D) as H by (intros d I; apply in_zfromto in I; lia). revert H. generalize (zfromto 2 (D + 1)). induction l as [|d l IH]; intros H A; cbn [foldM forallb].
  - f_equal. apply map_ext. intros k. unfold encA. rewrite !andb_true_r. reflexivity.
  - rewrite exposure_dim_ok by (try exact R; apply H; left; reflexivity). cbn [bind]. rewrite IH by (intros x I; apply H; right; exact I). f_equal. apply map_ext. intros k. unfold encA. rewrite !andb_assoc. reflexivity.
Qed.

Definition A2 (k i : Z) : bool := andb (A1 k i) (forallb (fun d => X d k i) (zfromto 2 (D + 1))).
Lemma A2_narrows k : encA A2 k <> 0 -> encA A1 k <> 0. Proof. unfold encA, A2. destruct (A1 k 0), (A1 k 1); cbn; try lia. Qed.
Lemma A1_narrows k : encA A1 k <> 0 -> encA A0 k <> 0. Proof. unfold encA, A1. destruct (A0 k 0), (A0 k 1); cbn; try lia. Qed.
Lemma A2_iff k i v w checks : end_of k i v w -> andb (A2 k i) (forallb (fun ok => ok k i) checks) = true <-> may_go T class_dim marks checks v k i.
Proof.
  intros He. pose proof (v_dim T HT) as HD. assert (0 <= k < ne) as Hk. { destruct He as [[_ R]|[_ R]]; apply (ent_range T HT HS 1 k _ ltac:(lia) R). } assert (i = 0 \/ i = 1) as Hi by (destruct He as [[-> _]|[-> _]]; auto). assert (zget ev (k * 2 + i) = Ok v) as Ev by (apply end_iff; eauto).
  unfold A2, A1, A0, at_end. rewrite Ev, !andb_true_iff, marked_iff, sameb_iff, !forallb_forall. unfold may_go. split.
  - intros (((M & S) & H) & C). split; [exact M|]. split; [|exact C]. exists w. split; [exact He|]. split; [exact S|]. intros d c row s srow Hd. apply (X_iff d k i v w Hd He). apply H, in_zfromto. lia.
  - intros (M & (w' & He' & S & H) & C). destruct (end_unique k i v w v w' He He') as [_ <-]. split; [|exact C]. split; [auto|]. intros d I. apply in_zfromto in I. apply (X_iff d k i v w ltac:(lia) He). intros c row s srow. apply H. lia.
Qed.
End asked.
