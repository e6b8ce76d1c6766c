(** Proofs for C84: by status. *)
From Coq Require Import Lia Permutation Sorted.
From Verif Require Import Prelude M_Array M_Par M_Scan S_Scan M_Sort M_Map S_Map S_Fan P_Array P_Scan P_Map P_Map2 P_Fan M_Graph S_Graph P_Graph P_Graph2 M_Mark S_Mark P_Mark P_Modify2 M_Cavs S_Cavs P_Cavs.
Local Open Scope Z_scope.

Lemma separate_more oc nc : forall fuel c r, separate_by_color fuel c oc nc = Ok (Some r) -> forall fuel', (fuel <= fuel')%nat -> separate_by_color fuel' c oc nc = Ok (Some r).
Proof.
  induction fuel as [|fuel IH]; intros c r H fuel' Hf; [discriminate|]. destruct fuel' as [|fuel']; [lia|]. cbn [separate_by_color] in *. destruct (_ && _)%bool; [exact H|].
  apply bind_ok in H as (p & Ep & H). rewrite Ep. cbn [bind]. apply bind_ok in H as (rest & Er & H). destruct rest as [l|]; [|discriminate]. rewrite (IH _ _ Er fuel') by lia. exact H.
Qed.

Lemma in_graph g e : wf_graph g -> In e (ab2b g) -> exists v, edge g v e.
Proof.
  intros W H. destruct (wf_lists g W) as (L & ->). cbn [of_lists ab2b] in H. apply in_concat in H as (l & Hl & He). apply In_nth_error in Hl as (i & Hi).
  exists (Z.of_nat i), l. split; [apply targets_of_lists, zget_nat, Hi|exact He].
Qed.
Lemma edge_in g v e : edge g v e -> In e (ab2b g).
Proof. intros (ts & T & H). destruct (targets_split _ _ _ T) as (lo & hi & _ & _ & E). destruct (mapM_in_inv _ _ _ _ E H) as (k & Ek & _). exact (zget_In _ _ _ Ek). Qed.
Lemma targets_bound g v ts : targets g v = Ok ts -> 0 <= v < nnodes g.
Proof. intros H. destruct (targets_split _ _ _ H) as (lo & hi & E1 & E2 & _). apply zget_bounds in E1. apply zget_bounds in E2. unfold nnodes. lia. Qed.

Lemma unmap_cavs_ok c oc nc keys : cavs_ok c oc nc -> StronglySorted Z.lt keys -> (forall k, In k keys -> 0 <= k < nnodes (keys2old c)) ->
  exists part, unmap_cavs keys c = Ok part /\ part_of c part keys /\ forall oc nc, cavs_ok c oc nc -> cavs_ok part oc nc.
Proof.
  intros H SS HK. unfold unmap_cavs.
  destruct (unmap_graph_spec keys (keys2old c) (ok_old _ _ _ H) HK) as (o & Eo & Wo & No & To).
  destruct (unmap_graph_spec keys (keys2new c) (ok_new _ _ _ H)) as (n & En & Wn & Nn & Tn); [rewrite <- (ok_keys _ _ _ H); exact HK|].
  rewrite Eo, En. cbn [bind]. exists (mk_cavs o n). split; [reflexivity|]. split; [split; [exact SS|split; [exact No|split; [exact Nn|]]]; intros i key Hk; split; [exact (To i key Hk)|exact (Tn i key Hk)]|].
  clear H oc nc. intros oc nc H.
  assert (TO : forall v ts, targets o v = Ok ts -> exists k, targets (keys2old c) k = Ok ts).
  { intros v ts T. pose proof (targets_bound _ _ _ T) as B. destruct (zget_in_range keys v) as (k & Ek); [lia|]. exists k. rewrite <- (To v k Ek). exact T. }
  assert (TN : forall v ts, targets n v = Ok ts -> exists k, targets (keys2new c) k = Ok ts).
  { intros v ts T. pose proof (targets_bound _ _ _ T) as B. destruct (zget_in_range keys v) as (k & Ek); [lia|]. exists k. rewrite <- (Tn v k Ek). exact T. }
  constructor; cbn [keys2old keys2new]; [exact Wo|exact Wn|congruence| | | |].
  - intros e He. destruct (in_graph o e Wo He) as (v & ts & T & Hin). destruct (TO v ts T) as (k & Tk). apply (ok_old_colors _ _ _ H). apply (edge_in _ k). exists ts. auto.
  - intros e He. destruct (in_graph n e Wn He) as (v & ts & T & Hin). destruct (TN v ts T) as (k & Tk). apply (ok_new_colors _ _ _ H). apply (edge_in _ k). exists ts. auto.
  - intros key es T. destruct (TO key es T) as (k & Tk). exact (ok_old_size _ _ _ H k es Tk).
  - intros key es T. destruct (TN key es T) as (k & Tk). exact (ok_new_size _ _ _ H k es Tk).
Qed.

Lemma zsum_bits (vs : list Z) : (forall v, In v vs -> v = 0 \/ v = 1) -> 0 <= zsum vs <= zlen vs /\ (0 < zsum vs <-> exists v, In v vs /\ v <> 0).
Proof.
  induction vs as [|v vs IH]; intros H; [split; [unfold zlen; cbn; lia|split; [cbn; lia|intros (v & [] & _)]]|].
  change (zsum (v :: vs)) with (v + zsum vs). rewrite zlen_cons. destruct (IH (fun x Hx => H x (or_intror Hx))) as [B I]. destruct (H v (or_introl eq_refl)) as [->| ->]; (split; [lia|]); split.
  - intros Q. assert (Q' : 0 < zsum vs) by lia. apply I in Q' as (x & Hx & Nx). exists x. split; [right; exact Hx|exact Nx].
  - intros (x & [<-|Hx] & Nx); [lia|]. assert (0 < zsum vs) by (apply I; eauto). lia.
  - intros _. exists 1. split; [left; reflexivity|lia].
  - lia.
Qed.

Lemma sum_step g marks : wf_graph g -> (forall w, In w (ab2b g) -> 0 <= w < zlen marks) -> (forall x, In x marks -> x = 0 \/ x = 1) -> (forall v ts, targets g v = Ok ts -> zlen ts <= 127) ->
  exists r, graph_reduce (- 2 ^ 31) (2 ^ 31 - 1) g marks 1 OMEGA_H_SUM = Ok r /\ zlen r = nnodes g /\
  forall v, 0 <= v < nnodes g -> exists x, zget r v = Ok x /\ (0 < x <-> exists w, edge g v w /\ marked marks w).
Proof.
  intros Hg Hr Hx Hs. unfold graph_reduce. destruct (unmap_spec (ab2b g) marks 1 ltac:(lia)) as (abd & -> & La & Ga).
  { intros b Hb. specialize (Hr b Hb). lia. }
  cbn [bind]. destruct (fan_reduce_spec (- 2 ^ 31) (2 ^ 31 - 1) OMEGA_H_SUM (a2ab g) abd 1 (zlen (ab2b g)) (proj1 Hg) ltac:(lia) (proj2 Hg) La) as (r & E & L & G).
  { intros x Hin. apply In_zget in Hin as (i & Ei). pose proof (zget_bounds _ _ _ Ei) as Bi. destruct (zget_in_range (ab2b g) i ltac:(lia)) as (b & Eb). specialize (Ga i b 0 Eb ltac:(lia)).
    rewrite !Z.mul_1_r, !Z.add_0_r in Ga. assert (In x marks); [eapply zget_In; rewrite <- Ga; exact Ei|]. specialize (Hx x H). lia. }
  rewrite Z.mul_1_r in L. fold (nnodes g) in L. exists r. split; [exact E|]. split; [exact L|].
  intros v Hv. destruct (wf_targets g v Hg Hv) as (ts & Ht). destruct (targets_split _ _ _ Ht) as (lo & hi & E1 & E2 & E3).
  destruct (G v lo hi 0 E1 E2 ltac:(lia)) as (vs & x & V1 & V2 & V3). rewrite Z.mul_1_r, Z.add_0_r in V2. exists x. split; [exact V2|].
  assert (mapM (zget marks) ts = Ok vs) as V4.
  { rewrite <- V1. clear - E3 Ga. revert ts E3. induction (zfromto lo hi) as [|i l IH]; intros ts E; cbn [mapM] in *; [injection E as <-; reflexivity|].
    apply bind_ok in E as (b & Eb & E). apply bind_ok in E as (ts' & Et & E). injection E as <-. cbn [mapM]. rewrite (Ga i b 0 Eb ltac:(lia)). rewrite Z.mul_1_r, Z.add_0_r, (IH ts' Et). reflexivity. }
  assert (Bits : forall y, In y vs -> y = 0 \/ y = 1). { intros y Hy. destruct (mapM_in_inv _ _ _ _ V4 Hy) as (w & Ew & _). apply Hx. exact (zget_In _ _ _ Ew). }
  destruct (zsum_bits vs Bits) as [B I]. assert (zlen vs = zlen ts) by (unfold zlen; rewrite (mapM_length _ _ _ V4); reflexivity). specialize (Hs v ts Ht). cbn [reduced] in V3. rewrite V3 by lia. rewrite I. split.
  - intros (y & Hy & Ny). destruct (mapM_in_inv _ _ _ _ V4 Hy) as (w & Ew & Hw). exists w. split; [exists ts; auto|exists y; auto].
  - intros (w & (ts' & Ht' & Hw) & (y & Ey & Ny)). assert (ts' = ts) as -> by congruence. destruct (mapM_in _ _ _ _ V4 Hw) as (y' & Ey' & Hy'). exists y'. split; [exact Hy'|congruence].
Qed.

Lemma collect_says m n P : zlen m = n -> (forall x, 0 <= x < n -> says m x (P x)) -> exists l, collect_marked m = Ok l /\ StronglySorted Z.lt l /\ forall x, In x l <-> 0 <= x < n /\ P x.
Proof.
  intros L G. destruct (collect_marked_full m (says_bits m n P L G)) as (r & E & S & I). exists r. split; [exact E|]. split; [exact S|]. intros x. rewrite I. split.
  - intros Ex. assert (B : 0 <= x < n) by (apply zget_bounds in Ex; lia). split; [exact B|]. destruct (G x B) as [[_ H]|[H _]]; [exact H|congruence].
  - intros [B H]. destruct (G x B) as [[E1 _]|[_ N]]; [exact E1|contradiction].
Qed.

Lemma invert_says m n P : zlen m = n -> (forall x, 0 <= x < n -> says m x (P x)) -> forall x, 0 <= x < n -> says (invert_marks m) x (~ P x).
Proof. intros L G x B. destruct (G x B) as [[E H]|[E H]]; [right|left]; rewrite (invert_marks_spec _ _ _ E); (split; [reflexivity|tauto]). Qed.
Lemma land_says a b n P Q : zlen a = n -> zlen b = n -> (forall x, 0 <= x < n -> says a x (P x)) -> (forall x, 0 <= x < n -> says b x (Q x)) ->
  exists r, land_each a b = Ok r /\ zlen r = n /\ forall x, 0 <= x < n -> says r x (P x /\ Q x).
Proof.
  intros La Lb Ga Gb. unfold land_each. rewrite La, Lb, Z.eqb_refl. cbn [check bind].
  destruct (tabulate_says n (fun i => x <- zget a i ;; y <- zget b i ;; Ok (mark (truth x && truth y))) (fun x => tells (P x /\ Q x))) as (r & E & L & G).
  - rewrite <- La. apply zlen_nonneg.
  - intros i Hi. destruct (Ga i Hi) as [[Ea Pa]|[Ea Pa]], (Gb i Hi) as [[Eb Pb]|[Eb Pb]]; rewrite Ea, Eb; cbn; eexists; (split; [reflexivity|]); [left; auto|right|right|right]; split; tauto.
  - exists r. split; [exact E|]. split; [exact L|]. intros x Hx. destruct (G x Hx) as (v & Ev & T). exact (says_of _ _ _ _ Ev T).
Qed.

Lemma separate_part part oc nc : cavs_ok part oc nc -> exists rounds fuel0, (forall fuel, (fuel0 <= fuel)%nat -> separate_by_color fuel part oc nc = Ok (Some rounds)) /\ rounds_separate part oc nc rounds.
Proof.
  intros H. destruct (separating_w part oc nc (S (Z.to_nat (nedges (keys2old part) + nedges (keys2new part)))) H (Nat.lt_succ_diag_r _)) as (r & E & G).
  exists r, (S (Z.to_nat (nedges (keys2old part) + nedges (keys2new part)))). split; [exact (separate_more oc nc _ _ _ E)|exact G].
Qed.

Lemma statuses_w : forall dim c old_bdry new_bdry old_ids new_ids kd_class_dims keys2kds,
  cavs_ok c old_bdry new_bdry -> cavs_ok c old_ids new_ids -> (forall x, In x old_bdry -> x = 0 \/ x = 1) ->
  zlen keys2kds = nnodes (keys2old c) -> (forall kd, In kd keys2kds -> 0 <= kd < zlen kd_class_dims) ->
  exists s ni ti ki fuel0, (forall fuel, (fuel0 <= fuel)%nat -> separate_cavities fuel dim c old_bdry new_bdry old_ids new_ids kd_class_dims keys2kds = Ok (Some s)) /\
  part_of c (not_bdry s) ni /\ (forall key, In key ni <-> 0 <= key < nnodes (keys2old c) /\ ~ touches c old_bdry key) /\
  part_of c (key_bdry s) ki /\ (forall key, In key ki <-> 0 <= key < nnodes (keys2old c) /\ on_bdry dim kd_class_dims keys2kds key) /\
  part_of c (touch_bdry s) ti /\ (forall key, In key ti <-> 0 <= key < nnodes (keys2old c) /\ touches c old_bdry key /\ ~ on_bdry dim kd_class_dims keys2kds key) /\
  (forall key, 0 <= key < nnodes (keys2old c) -> In key ni \/ In key ti \/ In key ki) /\
  rounds_separate (touch_bdry s) old_bdry new_bdry (touch_by_bdry s) /\ rounds_separate (key_bdry s) old_ids new_ids (key_by_class s).
Proof.
  intros dim c ob nb oi ni_ kcd k2k HB HI Bits LK RK. set (n := nnodes (keys2old c)) in *.
  destruct (sum_step (keys2old c) ob (ok_old _ _ _ HB) (ok_old_colors _ _ _ HB) Bits (ok_old_size _ _ _ HB)) as (r & Er & Lr & Gr). fold n in Lr, Gr.
  assert (S1 : forall x, 0 <= x < n -> says (map (fun x => mark (0 <? x)) r) x (touches c ob x)).
  { intros x Hx. destruct (Gr x Hx) as (v & Ev & Iv). unfold says. rewrite zget_map, Ev. cbn [bind]. destruct (Z.ltb_spec 0 v) as [Q|Q]; cbn [mark]; [left|right]; (split; [reflexivity|]); unfold touches; rewrite <- Iv; lia. }
  destruct (unmap_spec k2k kcd 1 ltac:(lia)) as (kd & Ek & Lk & Gk). { intros b Hb. specialize (RK b Hb). lia. }
  rewrite Z.mul_1_r, LK in Lk.
  assert (S2 : forall x, 0 <= x < n -> says (map (fun d => mark (d <? dim)) kd) x (on_bdry dim kcd k2k x)).
  { intros x Hx. destruct (zget_in_range k2k x) as (y & Ey); [lia|]. specialize (Gk x y 0 Ey ltac:(lia)). rewrite !Z.mul_1_r, !Z.add_0_r in Gk.
    destruct (zget_in_range kcd y) as (d & Ed); [apply RK; exact (zget_In _ _ _ Ey)|]. unfold says. rewrite zget_map, Gk, Ed. cbn [bind].
    destruct (Z.ltb_spec d dim) as [Q|Q]; cbn [mark]; [left|right]; (split; [reflexivity|]); [exists y, d; auto|]. intros (y' & d' & A1 & A2 & A3). assert (y' = y) as -> by congruence. assert (d' = d) as -> by congruence. lia. }
  assert (Lr' : zlen (map (fun x => mark (0 <? x)) r) = n) by (rewrite zlen_map; exact Lr). assert (Lk' : zlen (map (fun d => mark (d <? dim)) kd) = n) by (rewrite zlen_map; exact Lk).
  destruct (collect_says (invert_marks (map (fun x => mark (0 <? x)) r)) n (fun x => ~ touches c ob x)) as (l1 & E1 & O1 & I1); [unfold invert_marks; rewrite zlen_map; exact Lr'|exact (invert_says _ n _ Lr' S1)|].
  destruct (collect_says _ n _ Lk' S2) as (l2 & E2 & O2 & I2).
  destruct (land_says _ (invert_marks (map (fun d => mark (d <? dim)) kd)) n (fun x => touches c ob x) (fun x => ~ on_bdry dim kcd k2k x) Lr') as (ld & El & Ll & Sl); [unfold invert_marks; rewrite zlen_map; exact Lk'|exact S1|exact (invert_says _ n _ Lk' S2)|].
  destruct (collect_says _ n _ Ll Sl) as (l3 & E3 & O3 & I3).
  destruct (unmap_cavs_ok c ob nb l1 HB O1) as (p1 & U1 & P1 & K1); [intros k Hk; apply I1 in Hk; tauto|].
  destruct (unmap_cavs_ok c ob nb l2 HB O2) as (p2 & U2 & P2 & K2); [intros k Hk; apply I2 in Hk; tauto|].
  destruct (unmap_cavs_ok c ob nb l3 HB O3) as (p3 & U3 & P3 & K3); [intros k Hk; apply I3 in Hk; tauto|].
  destruct (separate_part p2 oi ni_ (K2 _ _ HI)) as (r2 & f2 & F2 & G2). destruct (separate_part p3 ob nb (K3 _ _ HB)) as (r3 & f3 & F3 & G3).
  exists (mk_separated p1 p3 p2 r3 r2), l1, l3, l2, (Nat.max f2 f3). split.
  - intros fuel Hf. unfold separate_cavities. rewrite Er. cbn [bind]. rewrite E1. cbn [bind]. rewrite U1. cbn [bind]. rewrite Ek. cbn [bind]. rewrite E2. cbn [bind]. rewrite U2. cbn [bind]. rewrite El. cbn [bind]. rewrite E3. cbn [bind]. rewrite U3. cbn [bind].
    rewrite F2 by lia. cbn [bind]. rewrite F3 by lia. reflexivity.
  - cbn [not_bdry key_bdry touch_bdry touch_by_bdry key_by_class]. repeat (split; [assumption|]). split; [|split; assumption].
    intros key Hk. rewrite I1, I2, I3. destruct (S1 key Hk) as [[_ T]|[_ T]]; [|left; auto]. destruct (S2 key Hk) as [[_ Q]|[_ Q]]; [right; right|right; left]; auto.
Qed.

Lemma elems_bdry_w : forall dim ev deg ne cd, 0 <= ne -> 0 <= deg -> zlen ev = ne * deg -> (forall v, In v ev -> 0 <= v < zlen cd) ->
  exists r, get_elems_are_bdry dim ev deg ne cd = Ok r /\ zlen r = ne /\ forall e, 0 <= e < ne -> says r e (exists i v d, 0 <= i < deg /\ zget ev (e * deg + i) = Ok v /\ zget cd v = Ok d /\ d <> dim).
Proof.
  intros dim ev deg ne cd Hn Hd L R. unfold get_elems_are_bdry. destruct (mark_up_spec ev deg ne (invert_marks (map (fun d => mark (d =? dim)) cd)) Hn Hd L) as (r & E & Lr & G).
  { unfold invert_marks. rewrite !zlen_map. exact R. }
  exists r. split; [exact E|]. split; [exact Lr|]. intros e He. eapply says_iff; [|exact (G e He)]. split.
  - intros (i & v & Hi & Ev & (m & Em & Nm)). unfold invert_marks in Em. rewrite !zget_map in Em. destruct (zget_in_range cd v) as (d & Ed); [apply R; exact (zget_In _ _ _ Ev)|]. rewrite Ed in Em. cbn [bind] in Em.
    exists i, v, d. repeat (split; [assumption|]). intros ->. rewrite Z.eqb_refl in Em. cbn in Em. congruence.
  - intros (i & v & d & Hi & Ev & Ed & Nd). exists i, v. split; [exact Hi|]. split; [exact Ev|]. exists 1. split; [|lia]. unfold invert_marks. rewrite !zget_map, Ed. cbn [bind].
    destruct (Z.eqb_spec d dim); [contradiction|]. reflexivity.
Qed.
