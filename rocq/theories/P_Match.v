From Coq Require Import Sorted.
From Verif Require Import Prelude M_Array P_Array M_Graph S_Graph P_Graph M_Sort S_Sort P_Sort M_Map S_Map P_Map P_Map2 P_Invert M_Template S_Template P_Template
  M_Align S_Align P_Align M_Unique S_Unique P_Unique M_Par M_Adj S_Adj P_Adj M_Match S_Match.
Local Open Scope Z_scope.

Lemma row_zget {A} deg (l : list A) e row j : row_is deg l e row -> 0 <= j < deg -> zget l (e * deg + j) = zget row j.
Proof. intros [_ H] Hj. destruct (H j Hj) as (x & -> & ->). reflexivity. Qed.

Lemma is_match_rows deg av2v bv2v a b ra rb wd : 2 <= deg <= 4 -> row_is deg av2v a ra -> row_is deg bv2v b rb -> 0 <= wd < deg ->
  is_match deg av2v (a * deg) bv2v (b * deg) wd = is_match deg ra 0 rb 0 wd.
Proof.
  intros Hd Ha Hb Hw. assert (deg = 2 \/ deg = 3 \/ deg = 4) as [-> |[-> | ->]] by lia; cbn [is_match].
  - rewrite (row_zget _ _ _ _ 1 Ha), (row_zget _ _ _ _ (1 - wd) Hb) by lia. reflexivity.
  - assert (0 <= Z.rem (wd + 1) 3 < 3 /\ 0 <= Z.rem (wd + 2) 3 < 3) as [R1 R2] by (split; apply Z.rem_bound_pos; lia).
    rewrite (row_zget _ _ _ _ 1 Ha), (row_zget _ _ _ _ 2 Ha), (row_zget _ _ _ _ _ Hb R1), (row_zget _ _ _ _ _ Hb R2) by lia. reflexivity.
  - assert (0 <= Z.rem (wd + 1) 4 < 4 /\ 0 <= Z.rem (wd + 2) 4 < 4 /\ 0 <= Z.rem (wd + 3) 4 < 4) as (R1 & R2 & R3) by (repeat split; apply Z.rem_bound_pos; lia).
    rewrite (row_zget _ _ _ _ 1 Ha), (row_zget _ _ _ _ 2 Ha), (row_zget _ _ _ _ 3 Ha), (row_zget _ _ _ _ _ Hb R1), (row_zget _ _ _ _ _ Hb R2), (row_zget _ _ _ _ _ Hb R3) by lia. reflexivity.
Qed.

Lemma is_match_rows_spec deg ra rb wd x : 2 <= deg <= 4 -> zlen ra = deg -> zlen rb = deg -> NoDup rb -> 0 <= wd < deg -> zget ra 0 = Ok x -> zget rb wd = Ok x ->
  exists m, is_match deg ra 0 rb 0 wd = Ok m /\
  match m with
  | Some code => good_code deg code /\ align_adj deg code rb = Ok ra
  | None => ~ same_polygon rb ra
  end.
Proof.
  intros Hd La Lb ND Hw Ex Eb.
  assert (forall m, (match m with Some code => good_code deg code /\ align_adj deg code rb = Ok ra | None => forall b r, 0 <= r < deg -> align_adj deg (make_code b r 0) rb <> Ok ra end) ->
    match m with Some code => good_code deg code /\ align_adj deg code rb = Ok ra | None => ~ same_polygon rb ra end) as K.
  { intros [c|] H; [exact H|]. intros P. destruct (polygon_reached deg rb ra Hd Lb P) as (b & r & R & E). exact (H b r R E). }
  destruct (zlen_cases rb deg Lb Hd) as [(b0 & b1 & -> & ->)|[(b0 & b1 & b2 & -> & ->)|(b0 & b1 & b2 & b3 & -> & ->)]].
  - destruct (zlen_cases ra 2 La ltac:(lia)) as [(a0 & a1 & -> & _)|[(? & ? & ? & _ & F)|(? & ? & ? & ? & _ & F)]]; try lia.
    assert (wd = 0 \/ wd = 1) as [-> | ->] by lia; vm_compute in Ex, Eb; injection Ex as <-; injection Eb as ->; cbn [is_match];
    change (zget [a0; a1] (0 + 1)) with (Ok a1).
    + change (zget [a0; b1] (0 + (1 - 0))) with (Ok b1). cbn [bind]. eexists. split; [reflexivity|]. apply K. destruct (Z.eqb_spec a1 b1) as [->|N].
      * split; [exists false, 0; split; [reflexivity|lia]|reflexivity].
      * intros b r R E. assert (r = 0 \/ r = 1) as [-> | ->] by lia; destruct b; vm_compute in E; inversion E; subst; apply NoDup_cons_iff in ND as [ND _]; cbn in ND; tauto.
    + change (zget [b0; a0] (0 + (1 - 1))) with (Ok b0). cbn [bind]. eexists. split; [reflexivity|]. apply K. destruct (Z.eqb_spec a1 b0) as [->|N].
      * split; [exists false, 1; split; [reflexivity|lia]|reflexivity].
      * intros b r R E. assert (r = 0 \/ r = 1) as [-> | ->] by lia; destruct b; vm_compute in E; inversion E; subst; apply NoDup_cons_iff in ND as [ND _]; cbn in ND; tauto.
  - destruct (zlen_cases ra 3 La ltac:(lia)) as [(? & ? & _ & F)|[(a0 & a1 & a2 & -> & _)|(? & ? & ? & ? & _ & F)]]; try lia.
    assert (b0 <> b1 /\ b0 <> b2 /\ b1 <> b2) as (N1 & N2 & N3). { apply NoDup_cons_iff in ND as [F1 ND]. apply NoDup_cons_iff in ND as [F2 _]. cbn in F1, F2. intuition congruence. }
    assert (wd = 0 \/ wd = 1 \/ wd = 2) as [-> |[-> | ->]] by lia; vm_compute in Ex, Eb; injection Ex as <-; injection Eb as ->; cbn [is_match];
      (eexists; split; [reflexivity|apply K]);
      match goal with |- context [(?x =? ?y) && (?z =? ?w)] => destruct (Z.eqb_spec x y), (Z.eqb_spec z w), (Z.eqb_spec x w), (Z.eqb_spec z y) end; cbn [andb];
      subst; try congruence;
      try (split; [do 2 eexists; split; [reflexivity|vm_compute; split; congruence]|reflexivity]);
      intros b r R E; (assert (r = 0 \/ r = 1 \/ r = 2) as [-> | [-> | ->]] by lia); destruct b; vm_compute in E; congruence.
  - destruct (zlen_cases ra 4 La ltac:(lia)) as [(? & ? & _ & F)|[(? & ? & ? & _ & F)|(a0 & a1 & a2 & a3 & -> & _)]]; try lia.
    assert (b0 <> b1 /\ b0 <> b2 /\ b0 <> b3 /\ b1 <> b2 /\ b1 <> b3 /\ b2 <> b3) as (N1 & N2 & N3 & N4 & N5 & N6).
    { apply NoDup_cons_iff in ND as [F1 ND]. apply NoDup_cons_iff in ND as [F2 ND]. apply NoDup_cons_iff in ND as [F3 _]. cbn in F1, F2, F3. intuition congruence. }
    assert (wd = 0 \/ wd = 1 \/ wd = 2 \/ wd = 3) as [-> |[-> | [-> | ->]]] by lia; vm_compute in Ex, Eb; injection Ex as <-; injection Eb as ->; cbn [is_match];
      repeat match goal with |- context [zget ?l ?i] => let v := eval vm_compute in (zget l i) in change (zget l i) with v end; cbn [bind];
      match goal with |- context [negb (?x =? ?y)] => destruct (Z.eqb_spec x y) end; cbn [negb];
      (eexists; split; [reflexivity|apply K]);
      try match goal with |- context [(?x =? ?y) && (?z =? ?w)] => destruct (Z.eqb_spec x y), (Z.eqb_spec z w), (Z.eqb_spec x w), (Z.eqb_spec z y) end; cbn [andb];
      subst; try congruence;
      try (split; [do 2 eexists; split; [reflexivity|vm_compute; split; congruence]|reflexivity]);
      intros b r R E; (assert (r = 0 \/ r = 1 \/ r = 2 \/ r = 3) as [-> | [-> | [-> | ->]]] by lia); destruct b; vm_compute in E; congruence.
Qed.

(** ** the loop over the entities of a vertex *)
Lemma foldM_two {S} (st st' : S -> Z -> res S) (H C : list Z) (F G : Z -> Z) : forall js us s, mapM (zget H) js = Ok (map F us) -> mapM (zget C) js = Ok (map G us) ->
  (forall s j u, In u us -> zget H j = Ok (F u) -> zget C j = Ok (G u) -> st s j = st' s u) -> foldM st js s = foldM st' us s.
Proof.
  induction js as [|j js IH]; intros us s E1 E2 K; destruct us as [|u us]; cbn [mapM map] in E1, E2; try discriminate; try reflexivity.
  - apply bind_ok in E1 as (y & _ & E1). apply bind_ok in E1 as (ys & _ & E1). discriminate.
  - apply bind_ok in E1 as (x & X1 & E1). apply bind_ok in E1 as (xs & X2 & E1). injection E1 as -> ->.
    apply bind_ok in E2 as (y & Y1 & E2). apply bind_ok in E2 as (ys & Y2 & E2). injection E2 as -> ->.
    cbn [foldM]. rewrite (K s j u (or_introl eq_refl) X1 Y1). destruct (st' s u) as [s'| |]; cbn [bind]; [|reflexivity|reflexivity].
    apply IH; [assumption|assumption|]. intros s2 j2 u2 Hu. apply K. right. exact Hu.
Qed.

Section loop.
Variable (m : Z -> option Z) (F : Z -> Z) (allow : bool).
Definition loop_step (s : option (Z * Z)) (u : Z) : res (option (Z * Z)) :=
  match s, allow with
  | Some _, true => Ok s
  | _, _ => match m u with None => Ok s | Some code => match s with Some _ => Abort | None => Ok (Some (F u, code)) end end
  end.
Lemma loop_none us s : (forall u, In u us -> m u = None) -> foldM loop_step us s = Ok s.
Proof.
  induction us as [|u us IH]; intros H; cbn [foldM]; [reflexivity|]. assert (loop_step s u = Ok s) as ->.
  { unfold loop_step. rewrite (H u (or_introl eq_refl)). destruct s as [p|], allow; reflexivity. }
  cbn [bind]. apply IH. intros v Hv. apply H. right. exact Hv.
Qed.
Lemma loop_first l1 u l2 code : (forall v, In v l1 -> m v = None) -> m u = Some code -> foldM loop_step (l1 ++ u :: l2) None = foldM loop_step l2 (Some (F u, code)).
Proof.
  intros H1 Hu. rewrite foldM_app, loop_none by exact H1. cbn [bind foldM]. unfold loop_step at 1. rewrite Hu. destruct allow; reflexivity.
Qed.
Lemma loop_stop l2 p : allow = true -> foldM loop_step l2 (Some p) = Ok (Some p).
Proof. intros Ha. induction l2 as [|u l2 IH]; cbn [foldM]; [reflexivity|]. unfold loop_step at 1. rewrite Ha. cbn [bind]. exact IH. Qed.
Lemma loop_second l2 u p : allow = false -> In u l2 -> m u <> None -> foldM loop_step l2 (Some p) = Abort.
Proof.
  intros Ha. induction l2 as [|v l2 IH]; intros Hin Hu; [destruct Hin|]. cbn [foldM]. unfold loop_step at 1. rewrite Ha.
  destruct (m v) as [c|] eqn:Ev; [reflexivity|]. cbn [bind]. apply IH; [|exact Hu]. destruct Hin as [->|Hin]; [congruence|exact Hin].
Qed.
Lemma first_some us : (forall u, In u us -> m u = None) \/ exists l1 u l2 code, us = l1 ++ u :: l2 /\ (forall v, In v l1 -> m v = None) /\ m u = Some code.
Proof.
  induction us as [|u us IH]; [left; intros u []|]. destruct (m u) as [c|] eqn:E.
  - right. exists [], u, us, c. split; [reflexivity|]. split; [intros v []|exact E].
  - destruct IH as [H|(l1 & v & l2 & c & -> & H & Hv)]; [left; intros v [<-|Hv]; auto|].
    right. exists (u :: l1), v, l2, c. split; [reflexivity|]. split; [intros w [<-|Hw]; auto|exact Hv].
Qed.
End loop.

Section kernel.
Variable deg nv nb : Z.
Variable bv2v : list Z.
Variable v2b : adj.
Hypothesis Hdeg : 2 <= deg <= 4.
Hypothesis Hb : zlen bv2v = nb * deg.
Hypothesis HD : rows_distinct deg bv2v.
Hypothesis HU : is_up deg nv bv2v v2b.

Lemma use_row u v : zget bv2v u = Ok v -> exists rb, row_is deg bv2v (u / deg) rb /\ NoDup rb /\ zlen rb = deg /\ zget rb (u mod deg) = Ok v.
Proof.
  intros E. pose proof (zget_bounds _ _ _ E) as B. pose proof (Z.div_mod u deg ltac:(lia)) as Eq. pose proof (Z.mod_pos_bound u deg ltac:(lia)) as Hm.
  assert (0 <= u / deg < nb) as Hr. { split; [apply Z.div_pos; lia|]. apply Z.div_lt_upper_bound; [lia|]. lia. }
  pose proof (row_is_tuple deg bv2v nb (u / deg) ltac:(lia) Hb Hr) as R. exists (tuple bv2v deg (u / deg)). split; [exact R|]. split; [exact (HD _ _ R)|].
  split; [exact (proj1 R)|]. rewrite <- (row_zget _ _ _ _ _ R Hm). rewrite <- E. f_equal. lia.
Qed.
Lemma match_use v row b p : row_is deg bv2v b row -> zget row p = Ok v -> zget bv2v (b * deg + p) = Ok v /\ (b * deg + p) / deg = b /\ (b * deg + p) mod deg = p.
Proof.
  intros R E. pose proof (zget_bounds _ _ _ E) as B. rewrite (proj1 R) in B. rewrite (row_zget _ _ _ _ _ R B). split; [exact E|].
  split; [rewrite Z.add_comm, Z.div_add, Z.div_small; lia|rewrite Z.add_comm, Z_mod_plus_full, Z.mod_small; lia].
Qed.

Variable av2v a2fv : list Z.
Variable a : Z.
Variable ra : list Z.
Variable fv : Z.
Hypothesis Ra : row_is deg av2v a ra.
Hypothesis Ef : zget a2fv a = Ok fv.
Hypothesis Ef0 : zget ra 0 = Ok fv.
Hypothesis Hfv : 0 <= fv < nv.

Definition the_match (u : Z) : option Z :=
  match is_match deg av2v (a * deg) bv2v (u / deg * deg) (u mod deg) with Ok m => m | _ => None end.

Lemma the_match_spec u : zget bv2v u = Ok fv -> is_match deg av2v (a * deg) bv2v (u / deg * deg) (u mod deg) = Ok (the_match u) /\
  match the_match u with
  | Some code => good_code deg code /\ exists rb, row_is deg bv2v (u / deg) rb /\ align_adj deg code rb = Ok ra
  | None => ~ matches deg bv2v ra (u / deg)
  end.
Proof.
  intros E. destruct (use_row u fv E) as (rb & R & ND & L & G). pose proof (Z.mod_pos_bound u deg ltac:(lia)) as Hm.
  unfold the_match. rewrite (is_match_rows deg av2v bv2v a (u / deg) ra rb (u mod deg) Hdeg Ra R Hm).
  destruct (is_match_rows_spec deg ra rb (u mod deg) fv Hdeg (proj1 Ra) L ND Hm Ef0 G) as (m & -> & H). split; [reflexivity|].
  destruct m as [c|]; [destruct H; eauto|]. intros (rb' & R' & P). rewrite (row_is_unique _ _ _ _ _ R' R) in P. exact (H P).
Qed.

Lemma kernel_loop allow : match_kernel deg a2fv av2v bv2v v2b allow a =
  (r <- foldM (loop_step the_match (fun u => u / deg) allow) (uses_of bv2v fv) None ;; match r with Some r => Ok r | None => Abort end).
Proof.
  destruct HU as (_ & _ & K). destruct (K fv Hfv) as [K1 K2]. unfold adj_targets, targets in K1. unfold adj_target_codes, targets in K2. cbn [a2ab ab2b] in *.
  unfold match_kernel. rewrite Ef. cbn [bind].
  destruct (zget (adj_a2ab v2b) fv) as [lo| |]; try discriminate. destruct (zget (adj_a2ab v2b) (fv + 1)) as [hi| |]; try discriminate. cbn [bind] in *.
  destruct (adj_codes v2b) as [codes|]; [|discriminate]. cbn [a2ab ab2b] in K2. cbn [bind] in K2.
  erewrite foldM_two; [reflexivity|exact K1|exact K2|]. intros s j u Hu X Y. apply uses_of_in in Hu. unfold loop_step. rewrite X. cbn [bind]. rewrite Y. cbn [bind].
  assert (0 <= u) as Hu0 by (apply zget_bounds in Hu; lia).
  destruct (use_code_fields deg None u ltac:(lia) Hu0 ltac:(discriminate)) as [-> _]. destruct (the_match_spec u Hu) as [-> _]. cbn [bind]. reflexivity.
Qed.

(** the candidates are exactly the uses *)
Lemma match_found b : matches deg bv2v ra b -> exists u, In u (uses_of bv2v fv) /\ u / deg = b /\ the_match u <> None.
Proof.
  intros (rb & R & P). assert (In fv rb) as Hin.
  { assert (In fv ra) as H0 by (eapply zget_In, Ef0). destruct P as [(x & y & -> & ->)|(x & y & E & ->)].
    - apply in_app_iff in H0. apply in_app_iff. tauto.
    - apply in_rev. rewrite E. apply in_app_iff in H0. apply in_app_iff. tauto. }
  apply In_zget in Hin as (p & Hp). destruct (match_use fv rb b p R Hp) as (H1 & H2 & H3). exists (b * deg + p). split; [apply uses_of_in, H1|]. split; [exact H2|].
  destruct (the_match_spec _ H1) as [_ S0]. destruct (the_match (b * deg + p)); [discriminate|]. rewrite H2 in S0. exfalso. apply S0. exists rb. auto.
Qed.
Lemma match_sound u c : In u (uses_of bv2v fv) -> the_match u = Some c -> matches deg bv2v ra (u / deg) /\ good_code deg c /\ exists rb, row_is deg bv2v (u / deg) rb /\ align_adj deg c rb = Ok ra.
Proof.
  intros Hu E. apply uses_of_in in Hu. destruct (the_match_spec u Hu) as [_ S0]. rewrite E in S0. destruct S0 as (G & rb & R & A). split; [|eauto].
  exists rb. split; [exact R|]. eapply polygon_spec; [exact Hdeg|exact (proj1 R)|exact A].
Qed.
Lemma uses_ordered l1 u l2 v : uses_of bv2v fv = l1 ++ u :: l2 -> In v l2 -> u < v.
Proof.
  intros E Hv. pose proof (uses_of_sorted bv2v fv) as H. rewrite E in H. clear E. induction l1 as [|w l1 IH]; cbn [app] in H; inversion H as [|? ? H1 H2]; subst; [|auto].
  rewrite Forall_forall in H2. apply H2, Hv.
Qed.
Lemma same_block u v : In u (uses_of bv2v fv) -> In v (uses_of bv2v fv) -> u / deg = v / deg -> u = v.
Proof.
  intros Hu Hv E. apply uses_of_in in Hu, Hv. destruct (use_row u fv Hu) as (r & R & ND & L & G). destruct (use_row v fv Hv) as (r' & R' & _ & _ & G').
  rewrite <- E in R'. rewrite (row_is_unique _ _ _ _ _ R' R) in G'. pose proof (NoDup_zget _ _ _ _ ND G G') as M.
  pose proof (Z.div_mod u deg ltac:(lia)). pose proof (Z.div_mod v deg ltac:(lia)). rewrite E in *. lia.
Qed.

Lemma kernel_none (allow : bool) : (forall b, ~ matches deg bv2v ra b) -> match_kernel deg a2fv av2v bv2v v2b allow a = Abort.
Proof.
  intros H. rewrite kernel_loop, loop_none; [reflexivity|]. intros u Hu. destruct (the_match u) as [c|] eqn:E; [|reflexivity].
  destruct (match_sound u c Hu E) as [M _]. destruct (H _ M).
Qed.
Lemma kernel_two b b' : matches deg bv2v ra b -> matches deg bv2v ra b' -> b <> b' -> match_kernel deg a2fv av2v bv2v v2b false a = Abort.
Proof.
  intros M M' N. destruct (match_found b M) as (u & Hu & Eu & Su). destruct (match_found b' M') as (v & Hv & Ev & Sv).
  rewrite kernel_loop. destruct (first_some the_match (uses_of bv2v fv)) as [H|(l1 & w & l2 & c & E & H1 & H2)]; [elim Su; auto|].
  rewrite E. rewrite (loop_first the_match _ false l1 w l2 c H1 H2).
  assert (exists x, In x l2 /\ the_match x <> None) as (x & Hx & Sx).
  { rewrite E in Hu, Hv. apply in_app_iff in Hu, Hv. destruct Hu as [Hu|[->|Hu]]; [elim Su; auto| |eauto]. destruct Hv as [Hv|[->|Hv]]; [elim Sv; auto| |eauto]. congruence. }
  rewrite (loop_second the_match _ false l2 x _ eq_refl Hx Sx). reflexivity.
Qed.
Lemma kernel_one (allow : bool) b : matches deg bv2v ra b -> (forall b', matches deg bv2v ra b' -> (if allow return Prop then b <= b' else b' = b)) ->
  exists code rb, match_kernel deg a2fv av2v bv2v v2b allow a = Ok (b, code) /\ good_code deg code /\ row_is deg bv2v b rb /\ align_adj deg code rb = Ok ra.
Proof.
  intros M HM. destruct (match_found b M) as (u & Hu & Eu & Su). rewrite kernel_loop.
  destruct (first_some the_match (uses_of bv2v fv)) as [H|(l1 & w & l2 & c & E & H1 & H2)]; [elim Su; auto|].
  assert (In w (uses_of bv2v fv)) as Hw by (rewrite E; apply in_elt).
  destruct (match_sound w c Hw H2) as (Mw & G & rb & R & A).
  assert (w = u) as ->.
  { pose proof (HM _ Mw) as Hle. destruct allow.
    - rewrite E in Hu. apply in_app_iff in Hu as [Hu|[Hu|Hu]]; [elim Su; auto|exact Hu|].
      pose proof (uses_ordered l1 w l2 u E Hu) as Hlt. apply same_block; [exact Hw|rewrite E; apply in_app_iff; right; right; exact Hu|].
      pose proof (Z.div_le_mono w u deg ltac:(lia) ltac:(lia)). lia.
    - apply same_block; [exact Hw|exact Hu|lia]. }
  rewrite Eu in *. exists c, rb. split; [|auto]. rewrite E, (loop_first the_match _ allow l1 u l2 c H1 H2). destruct allow.
  - rewrite loop_stop by reflexivity. cbn [bind]. rewrite Eu. reflexivity.
  - rewrite loop_none; [cbn [bind]; rewrite Eu; reflexivity|]. intros v Hv. destruct (the_match v) as [cv|] eqn:Ev; [|reflexivity].
    assert (In v (uses_of bv2v fv)) as Hv' by (rewrite E; apply in_app_iff; right; right; exact Hv). destruct (match_sound v cv Hv' Ev) as (Mv & _).
    pose proof (HM _ Mv) as Hvb. cbv beta iota in Hvb. assert (v = u) by (apply same_block; [exact Hv'|exact Hu|lia]). pose proof (uses_ordered l1 u l2 v E Hv). lia.
Qed.
Lemma kernel_defined allow : (exists r, match_kernel deg a2fv av2v bv2v v2b allow a = Ok r) \/ match_kernel deg a2fv av2v bv2v v2b allow a = Abort.
Proof.
  rewrite kernel_loop. destruct (first_some the_match (uses_of bv2v fv)) as [H|(l1 & w & l2 & c & E & H1 & H2)].
  - rewrite loop_none by exact H. right. reflexivity.
  - rewrite E, (loop_first the_match _ allow l1 w l2 c H1 H2). destruct allow.
    + rewrite loop_stop by reflexivity. left. eexists. reflexivity.
    + destruct (first_some the_match l2) as [H|(m1 & x & m2 & c2 & -> & _ & Ex)].
      * rewrite loop_none by exact H. left. eexists. reflexivity.
      * right. rewrite (loop_second the_match _ false _ x); [reflexivity|reflexivity|apply in_elt|congruence].
Qed.
End kernel.

(** ** all entities *)
Lemma mapM_abort {A B} (f : A -> res B) l x : (forall y, In y l -> (exists r, f y = Ok r) \/ f y = Abort) -> In x l -> f x = Abort -> mapM f l = Abort.
Proof.
  induction l as [|y l IH]; intros H Hx E; [destruct Hx|]. cbn [mapM]. destruct (H y (or_introl eq_refl)) as [(r & Hr)|Hr]; rewrite Hr; [|reflexivity].
  destruct Hx as [->|Hx]; [congruence|]. cbn [bind]. rewrite IH; [reflexivity| |exact Hx|exact E]. intros z Hz. apply H. right. exact Hz.
Qed.

Lemma find_matches_ex_deg deg : 2 <= deg <= 4 -> forall a2fv av2v bv2v v2b allow, find_matches_ex deg a2fv av2v bv2v v2b allow = find_matches_deg deg a2fv av2v bv2v v2b allow.
Proof. intros H. assert (deg = 2 \/ deg = 3 \/ deg = 4) as [-> |[-> | ->]] by lia; reflexivity. Qed.

Section all.
Variable deg nv na nb : Z.
Variable av2v bv2v a2fv : list Z.
Variable v2b : adj.
Variable allow : bool.
Hypothesis Hdeg : 2 <= deg <= 4.
Hypothesis Ha : zlen av2v = na * deg.
Hypothesis Hb : zlen bv2v = nb * deg.
Hypothesis HD : rows_distinct deg bv2v.
Hypothesis HU : is_up deg nv bv2v v2b.
Hypothesis Hf : zlen a2fv = na.
Hypothesis Hf0 : forall a, 0 <= a < na -> zget a2fv a = zget av2v (a * deg).
Hypothesis HV : forall v, In v av2v -> 0 <= v < nv.

Lemma row_first a ra : row_is deg av2v a ra -> exists fv, zget a2fv a = Ok fv /\ zget ra 0 = Ok fv /\ 0 <= fv < nv.
Proof.
  intros R. destruct (proj2 R 0 ltac:(lia)) as (x & E1 & E2). pose proof (row_is_range deg av2v na a ra ltac:(lia) Ha R) as Hr.
  exists x. rewrite Z.add_0_r in E1. rewrite (Hf0 a Hr). split; [exact E1|]. split; [exact E2|]. apply HV. eapply zget_In, E1.
Qed.
Lemma find_matches_ok : (forall a ra, row_is deg av2v a ra -> exists b, matches deg bv2v ra b /\ forall b', matches deg bv2v ra b' -> (if allow return Prop then b <= b' else b' = b)) ->
  exists a2b codes, find_matches_ex deg a2fv av2v bv2v v2b allow = Ok (a2b, codes) /\ zlen a2b = na /\ zlen codes = na /\
  forall a ra, row_is deg av2v a ra -> exists b code rb, zget a2b a = Ok b /\ zget codes a = Ok code /\ good_code deg code /\
    row_is deg bv2v b rb /\ align_adj deg code rb = Ok ra /\ forall b', matches deg bv2v ra b' -> (if allow return Prop then b <= b' else b' = b).
Proof.
  intros HM. rewrite find_matches_ex_deg by exact Hdeg. unfold find_matches_deg. rewrite Hf, Ha. unfold check. rewrite Z.eqb_refl. cbn [bind].
  assert (0 <= na) as Hna by (pose proof (zlen_nonneg a2fv); lia).
  assert (forall a ra, row_is deg av2v a ra -> exists b code rb, match_kernel deg a2fv av2v bv2v v2b allow a = Ok (b, code) /\ good_code deg code /\ row_is deg bv2v b rb /\ align_adj deg code rb = Ok ra /\
    forall b', matches deg bv2v ra b' -> (if allow return Prop then b <= b' else b' = b)) as K.
  { intros a ra R. destruct (HM a ra R) as (b & M & H). destruct (row_first a ra R) as (fv & E1 & E2 & E3).
    destruct (kernel_one deg nv nb bv2v v2b Hdeg Hb HD HU av2v a2fv a ra fv R E1 E2 E3 allow b M H) as (c & rb & G1 & G2 & G3 & G4). exists b, c, rb. auto. }
  destruct (mapM_total (match_kernel deg a2fv av2v bv2v v2b allow) (zrange na)) as (r & Er).
  { intros a Hin. apply in_zrange in Hin. destruct (K a _ (row_is_tuple deg av2v na a ltac:(lia) Ha Hin)) as (b & c & rb & G & _). eauto. }
  change (mapM (match_kernel deg a2fv av2v bv2v v2b allow) (zrange na)) with (tabulate na (match_kernel deg a2fv av2v bv2v v2b allow)) in Er. rewrite Er. cbn [bind].
  apply tabulate_ok in Er as [El Er]; [|exact Hna]. exists (map fst r), (map snd r). split; [reflexivity|]. rewrite !zlen_map. split; [exact El|]. split; [exact El|].
  intros a ra R. destruct (K a ra R) as (b & c & rb & G1 & G2 & G3 & G4 & G5). destruct (Er a (row_is_range deg av2v na a ra ltac:(lia) Ha R)) as (p & P1 & P2).
  rewrite G1 in P1. injection P1 as <-. exists b, c, rb. rewrite !zget_map, P2. cbn [bind fst snd]. auto 10.
Qed.
Lemma find_matches_abort a ra : row_is deg av2v a ra -> ((forall b, ~ matches deg bv2v ra b) \/ (allow = false /\ exists b b', matches deg bv2v ra b /\ matches deg bv2v ra b' /\ b <> b')) ->
  find_matches_ex deg a2fv av2v bv2v v2b allow = Abort.
Proof.
  intros R HB. rewrite find_matches_ex_deg by exact Hdeg. unfold find_matches_deg. rewrite Hf, Ha. unfold check. rewrite Z.eqb_refl. cbn [bind].
  unfold tabulate. rewrite (mapM_abort _ (zrange na) a); [reflexivity| | |].
  - intros x Hx. apply in_zrange in Hx. pose proof (row_is_tuple deg av2v na x ltac:(lia) Ha Hx) as Rx. destruct (row_first _ _ Rx) as (fv & E1 & E2 & E3).
    exact (kernel_defined deg nv nb bv2v v2b Hdeg Hb HD HU av2v a2fv x _ fv Rx E1 E2 E3 allow).
  - apply in_zrange. exact (row_is_range deg av2v na a ra ltac:(lia) Ha R).
  - destruct (row_first _ _ R) as (fv & E1 & E2 & E3). destruct HB as [H|(-> & b & b' & M & M' & N)].
    + exact (kernel_none deg nv nb bv2v v2b Hdeg Hb HD HU av2v a2fv a ra fv R E1 E2 E3 allow H).
    + exact (kernel_two deg nv nb bv2v v2b Hdeg Hb HD HU av2v a2fv a ra fv R E1 E2 E3 b b' M M' N).
Qed.
End all.

Lemma get_component_spec l ncomps comp n : 0 < ncomps -> zlen l = n * ncomps -> 0 <= comp < ncomps ->
  exists r, get_component l ncomps comp = Ok r /\ zlen r = n /\ forall i, 0 <= i < n -> zget r i = zget l (i * ncomps + comp).
Proof.
  intros Hn Hl Hc. assert (0 <= n) as Hn0 by (pose proof (zlen_nonneg l); nia). unfold get_component, divide_no_remainder, check.
  destruct (Z.eqb_spec ncomps 0); [lia|]. cbn [negb bind]. rewrite Hl. rewrite Z.quot_mul, Z.rem_mul by lia. cbn [Z.eqb bind]. unfold tabulate.
  destruct (mapM_total (fun i => zget l (i * ncomps + comp)) (zrange n)) as (r & E).
  { intros i Hi. apply in_zrange in Hi. apply zget_in_range. nia. }
  exists r. split; [exact E|]. apply (tabulate_ok n (fun i => zget l (i * ncomps + comp)) r Hn0) in E as [E1 E2]. split; [exact E1|].
  intros i Hi. destruct (E2 i Hi) as (x & -> & ->). reflexivity.
Qed.

Lemma invert_is_up deg nb nv bv2v m0 s1 s2 : 2 <= deg <= 4 -> 0 <= nv -> zlen bv2v = nb * deg -> rows_distinct deg bv2v -> (forall v, In v bv2v -> 0 <= v < nv) ->
  exists o, invert_adj (mk_adj [] bv2v None) deg nv m0 s1 s2 = Ok o /\ forall up, o = Some up -> is_up deg nv bv2v up.
Proof.
  intros Hd Hnv Hb HD HV. destruct (invert_adj_spec (mk_adj [] bv2v None) deg nv m0 s1 s2 ltac:(lia) Hnv HV) as (o & E & H).
  - intros i j l Ei Ej Eq. cbn [adj_ab2b] in *. destruct (use_row deg nb bv2v Hd Hb HD i l Ei) as (r & R & ND & L & G). destruct (use_row deg nb bv2v Hd Hb HD j l Ej) as (r' & R' & _ & _ & G').
    rewrite <- Eq in R'. rewrite (row_is_unique _ _ _ _ _ R' R) in G'. pose proof (NoDup_zget _ _ _ _ ND G G') as M.
    pose proof (Z.div_mod i deg ltac:(lia)). pose proof (Z.div_mod j deg ltac:(lia)). rewrite Eq in *. lia.
  - discriminate.
  - exists o. split; [exact E|]. exact H.
Qed.

(** ** reflect_down *)
Lemma side_value f high low hv2v h u row x : is_side f high low hv2v h u row -> 0 <= low < high -> high <= 3 -> In x row -> In x hv2v.
Proof.
  intros (hr & R & _ & F) _ _ Hx. induction F as [|v y vs ys E _ IH]; [destruct Hx|]. destruct Hx as [->|Hx]; [|auto].
  pose proof (zget_bounds _ _ _ E) as B. rewrite (proj1 R) in B. rewrite <- (row_zget _ _ _ _ _ R B) in E. eapply zget_In, E.
Qed.

Lemma reflect_v2l_spec hv2v lv2v v2l f high low nh nl nv : 1 <= low < high -> high <= 3 ->
  zlen hv2v = nh * element_degree f high 0 -> zlen lv2v = nl * element_degree f low 0 ->
  rows_distinct (element_degree f low 0) lv2v -> (forall v, In v hv2v -> 0 <= v < nv) -> is_up (element_degree f low 0) nv lv2v v2l ->
  ((forall h u row, is_side f high low hv2v h u row -> exists l, matches (element_degree f low 0) lv2v row l /\ forall l', matches (element_degree f low 0) lv2v row l' -> l' = l) ->
   exists hl2l codes, reflect_down_v2l hv2v lv2v v2l f high low = Ok (hl2l, codes) /\
   zlen hl2l = nh * element_degree f high low /\ zlen codes = nh * element_degree f high low /\
   forall h u row, is_side f high low hv2v h u row -> exists l code lrow,
     zget hl2l (h * element_degree f high low + u) = Ok l /\ zget codes (h * element_degree f high low + u) = Ok code /\
     row_is (element_degree f low 0) lv2v l lrow /\ align_adj (element_degree f low 0) code lrow = Ok row /\ good_code (element_degree f low 0) code) /\
  (forall h u row, is_side f high low hv2v h u row ->
     ((forall l, ~ matches (element_degree f low 0) lv2v row l) \/ (exists l l', matches (element_degree f low 0) lv2v row l /\ matches (element_degree f low 0) lv2v row l' /\ l <> l')) ->
     reflect_down_v2l hv2v lv2v v2l f high low = Abort).
Proof.
  intros Hl Hh Lh Ll HD HV HU. set (deg := element_degree f low 0) in *. set (d := element_degree f high low).
  assert (2 <= deg <= 4) as Hdeg by (apply low_degree; lia). assert (0 < d) as Hd by (apply degree_pos; lia).
  destruct (form_uses_spec hv2v f high low nh Hl Hh Lh) as (uv2v & Eu & Lu & Su). fold deg d in Lu, Su.
  assert (0 <= nh) as Hnh. { assert (0 < element_degree f high 0) by (apply degree_pos; lia). pose proof (zlen_nonneg hv2v). nia. }
  assert (forall a ra, row_is deg uv2v a ra -> is_side f high low hv2v (a / d) (a mod d) ra) as HR.
  { intros a ra R. pose proof (row_is_range deg uv2v (nh * d) a ra ltac:(lia) Lu R) as Hr. pose proof (Z.div_mod a d ltac:(lia)) as Eq. pose proof (Z.mod_pos_bound a d Hd) as Hm.
    assert (0 <= a / d < nh) as Hq by (split; [apply Z.div_pos; lia|apply Z.div_lt_upper_bound; lia]).
    specialize (Su (a / d) (a mod d) Hq Hm). replace (a / d * d + a mod d) with a in Su by lia. rewrite (row_is_eq deg uv2v (nh * d) a ra ltac:(lia) Lu R). exact Su. }
  assert (forall h u row, is_side f high low hv2v h u row -> row_is deg uv2v (h * d + u) row) as HS.
  { intros h u row Sd. destruct Sd as (hr & R & Hu & F). assert (0 < element_degree f high 0) as Hdh by (apply degree_pos; lia).
    pose proof (row_is_range _ hv2v nh h hr Hdh Lh R) as Hq. fold d in Hu.
    rewrite (side_row_unique f high low hv2v h u row (tuple uv2v deg (h * d + u))); [apply row_is_tuple with (nh * d); [lia|exact Lu|nia]|exists hr; auto|apply Su; assumption]. }
  assert (forall v, In v uv2v -> 0 <= v < nv) as HVu.
  { intros v Hv. apply In_zget in Hv as (k & Hk). pose proof (zget_bounds _ _ _ Hk) as B. pose proof (Z.div_mod k deg ltac:(lia)) as Eq. pose proof (Z.mod_pos_bound k deg ltac:(lia)) as Hm.
    assert (0 <= k / deg < nh * d) as Hq by (split; [apply Z.div_pos; lia|apply Z.div_lt_upper_bound; lia]).
    pose proof (row_is_tuple deg uv2v (nh * d) (k / deg) ltac:(lia) Lu Hq) as R. apply HV. eapply side_value; [exact (HR _ _ R)|lia|lia|].
    replace k with (k / deg * deg + k mod deg) in Hk by lia. rewrite (row_zget _ _ _ _ _ R Hm) in Hk. eapply zget_In, Hk. }
  destruct (get_component_spec uv2v deg 0 (nh * d) ltac:(lia) Lu ltac:(lia)) as (a2fv & Ec & Lc & Gc).
  assert (forall a, 0 <= a < nh * d -> zget a2fv a = zget uv2v (a * deg)) as Hf0 by (intros a Ha; rewrite (Gc a Ha), Z.add_0_r; reflexivity).
  assert (reflect_down_v2l hv2v lv2v v2l f high low = find_matches_ex deg a2fv uv2v lv2v v2l false) as ->.
  { unfold reflect_down_v2l. rewrite Eu. cbn [bind]. unfold find_matches, check. destruct (Z.leb_spec low 2); [|lia]. cbn [bind]. fold deg. rewrite Ec. reflexivity. }
  split.
  - intros HM. destruct (find_matches_ok deg nv (nh * d) nl uv2v lv2v a2fv v2l false Hdeg Lu Ll HD HU Lc Hf0 HVu) as (hl2l & codes & E & L1 & L2 & K).
    { intros a ra R. destruct (HM _ _ _ (HR a ra R)) as (l & M1 & M2). exists l. auto. }
    exists hl2l, codes. split; [exact E|]. split; [exact L1|]. split; [exact L2|]. intros h u row Sd. destruct (K _ _ (HS h u row Sd)) as (l & c & rl & K1 & K2 & K3 & K4 & K5 & _).
    exists l, c, rl. auto.
  - intros h u row Sd HB. eapply (find_matches_abort deg nv (nh * d) nl uv2v lv2v a2fv v2l false Hdeg Lu Ll HD HU Lc Hf0 HVu _ row (HS h u row Sd)).
    destruct HB as [H|H]; [left; exact H|right; auto].
Qed.

Lemma polygons_distinct_unique deg lv2v row l : 2 <= deg <= 4 -> polygons_distinct deg lv2v -> matches deg lv2v row l -> forall l', matches deg lv2v row l' -> l' = l.
Proof.
  intros Hd HP (r & R & P) l' (r' & R' & P'). eapply HP; [exact R'|exact R|].
  assert (2 <= zlen r <= 4) as Hr by (rewrite (proj1 R); exact Hd). assert (2 <= zlen r' <= 4) as Hr' by (rewrite (proj1 R'); exact Hd).
  eapply same_polygon_trans; [exact Hr'|exact P'|]. apply same_polygon_sym; [exact Hr|exact P].
Qed.

Lemma reflect_down_spec hv2v lv2v f high low nh nl nv m0 s1 s2 : 1 <= low < high -> high <= 3 -> 0 <= nv ->
  zlen hv2v = nh * element_degree f high 0 -> zlen lv2v = nl * element_degree f low 0 ->
  rows_distinct (element_degree f low 0) lv2v -> polygons_distinct (element_degree f low 0) lv2v ->
  (forall v, In v hv2v \/ In v lv2v -> 0 <= v < nv) ->
  (forall h u row, is_side f high low hv2v h u row -> exists l, matches (element_degree f low 0) lv2v row l) ->
  exists o, reflect_down hv2v lv2v f nv high low m0 s1 s2 = Ok o /\
  forall hl2l codes, o = Some (hl2l, codes) ->
  zlen hl2l = nh * element_degree f high low /\ zlen codes = nh * element_degree f high low /\
  forall h u row, is_side f high low hv2v h u row -> exists l code lrow,
    zget hl2l (h * element_degree f high low + u) = Ok l /\ zget codes (h * element_degree f high low + u) = Ok code /\
    row_is (element_degree f low 0) lv2v l lrow /\ align_adj (element_degree f low 0) code lrow = Ok row /\ code_rotation code < element_degree f low 0.
Proof.
  intros Hl Hh Hnv Lh Ll HD HP HV HM. assert (2 <= element_degree f low 0 <= 4) as Hdeg by (apply low_degree; lia).
  destruct (invert_is_up (element_degree f low 0) nl nv lv2v m0 s1 s2 Hdeg Hnv Ll HD ltac:(auto)) as (o & Eo & Ho).
  unfold reflect_down. rewrite Eo. cbn [bind]. destruct o as [v2l|]; [|exists None; split; [reflexivity|discriminate]].
  destruct (reflect_v2l_spec hv2v lv2v v2l f high low nh nl nv Hl Hh Lh Ll HD ltac:(auto) (Ho v2l eq_refl)) as [K _].
  destruct K as (hl2l & codes & E & L1 & L2 & K). { intros h u row Sd. destruct (HM h u row Sd) as (l & M). exists l. split; [exact M|]. eapply polygons_distinct_unique; eassumption. }
  rewrite E. cbn [bind]. eexists. split; [reflexivity|]. intros hl2l' codes' Eq. assert (hl2l' = hl2l /\ codes' = codes) as [-> ->] by (split; congruence).
  split; [exact L1|]. split; [exact L2|]. intros h u row Sd. destruct (K h u row Sd) as (l & c & rl & K1 & K2 & K3 & K4 & fl & r & -> & Hr).
  exists l, (make_code fl r 0), rl. repeat (split; [assumption|]). apply code_small; assumption.
Qed.
Lemma reflect_down_abort hv2v lv2v f high low nh nl nv m0 s1 s2 h u row : 1 <= low < high -> high <= 3 -> 0 <= nv ->
  zlen hv2v = nh * element_degree f high 0 -> zlen lv2v = nl * element_degree f low 0 ->
  rows_distinct (element_degree f low 0) lv2v -> (forall v, In v hv2v \/ In v lv2v -> 0 <= v < nv) ->
  is_side f high low hv2v h u row ->
  (forall l, ~ matches (element_degree f low 0) lv2v row l) \/ (exists l l', matches (element_degree f low 0) lv2v row l /\ matches (element_degree f low 0) lv2v row l' /\ l <> l') ->
  reflect_down hv2v lv2v f nv high low m0 s1 s2 = Ok None \/ reflect_down hv2v lv2v f nv high low m0 s1 s2 = Abort.
Proof.
  intros Hl Hh Hnv Lh Ll HD HV Sd HB. assert (2 <= element_degree f low 0 <= 4) as Hdeg by (apply low_degree; lia).
  destruct (invert_is_up (element_degree f low 0) nl nv lv2v m0 s1 s2 Hdeg Hnv Ll HD ltac:(auto)) as (o & Eo & Ho).
  unfold reflect_down. rewrite Eo. cbn [bind]. destruct o as [v2l|]; [|left; reflexivity]. right.
  destruct (reflect_v2l_spec hv2v lv2v v2l f high low nh nl nv Hl Hh Lh Ll HD ltac:(auto) (Ho v2l eq_refl)) as [_ K]. rewrite (K h u row Sd HB). reflexivity.
Qed.

(** the entities found by find_unique satisfy the hypotheses of reflect_down *)
Lemma unique_reflect hv2v lv2v f high low nh nv m0 s1 s2 : 1 <= low < high -> high <= 3 -> 0 <= nv ->
  zlen hv2v = nh * element_degree f high 0 -> rows_distinct (element_degree f high 0) hv2v -> (forall v, In v hv2v -> 0 <= v < nv) ->
  find_unique hv2v f high low = Ok lv2v ->
  exists o, reflect_down hv2v lv2v f nv high low m0 s1 s2 = Ok o /\
  forall hl2l codes, o = Some (hl2l, codes) ->
  zlen hl2l = nh * element_degree f high low /\ zlen codes = nh * element_degree f high low /\
  forall h u row, is_side f high low hv2v h u row -> exists l code lrow,
    zget hl2l (h * element_degree f high low + u) = Ok l /\ zget codes (h * element_degree f high low + u) = Ok code /\
    row_is (element_degree f low 0) lv2v l lrow /\ align_adj (element_degree f low 0) code lrow = Ok row /\ code_rotation code < element_degree f low 0.
Proof.
  intros Hl Hh Hnv Lh HD HV Eu. assert (2 <= element_degree f low 0 <= 4) as Hdeg by (apply low_degree; lia).
  destruct (find_unique_spec hv2v f high low nh Hl Hh Lh HD) as (out & nl & E & Lo & K1 & K2 & K3). assert (out = lv2v) as -> by congruence.
  assert (forall e row, row_is (element_degree f low 0) lv2v e row -> exists h u, is_side f high low hv2v h u row) as K1' by (intros e row R; destruct (K1 e row R) as (h & u & H & _); eauto).
  apply reflect_down_spec with nl; try assumption.
  - intros e row R. destruct (K1' e row R) as (h & u & Sd). eapply side_row_NoDup; [| |exact HD|exact Sd]; lia.
  - intros v [Hv|Hv]; [auto|]. apply HV. apply In_zget in Hv as (k & Hk). pose proof (zget_bounds _ _ _ Hk) as B. set (deg := element_degree f low 0) in *.
    pose proof (Z.div_mod k deg ltac:(lia)) as Eq. pose proof (Z.mod_pos_bound k deg ltac:(lia)) as Hm.
    assert (0 <= k / deg < nl) as Hq by (split; [apply Z.div_pos; lia|apply Z.div_lt_upper_bound; lia]).
    pose proof (row_is_tuple deg lv2v nl (k / deg) ltac:(lia) Lo Hq) as R. destruct (K1' _ _ R) as (h & u & Sd). eapply side_value; [exact Sd|lia|lia|].
    replace k with (k / deg * deg + k mod deg) in Hk by lia. rewrite (row_zget _ _ _ _ _ R Hm) in Hk. eapply zget_In, Hk.
  - intros h u row Sd. destruct (K2 h u row Sd) as (e & row' & R & P). exists e, row'. split; [exact R|]. apply same_polygon_sym; [|exact P].
    destruct Sd as (hr & _ & _ & F). apply Forall2_len in F. unfold zlen. rewrite <- F. rewrite <- (nverts_eq f low) in Hdeg by lia. unfold side_verts.
    rewrite map_length, zrange_length. lia.
Qed.

Lemma find_matches_total f dim av2v bv2v v2b na nb nv : 1 <= dim <= 2 -> let deg := element_degree f dim 0 in
  zlen av2v = na * deg -> zlen bv2v = nb * deg -> rows_distinct deg bv2v -> is_up deg nv bv2v v2b -> (forall v, In v av2v -> 0 <= v < nv) ->
  ((forall a ra, row_is deg av2v a ra -> exists b, matches deg bv2v ra b /\ forall b', matches deg bv2v ra b' -> b' = b) ->
    exists a2b codes, find_matches f dim av2v bv2v v2b = Ok (a2b, codes) /\ zlen a2b = na /\ zlen codes = na /\
    forall a ra, row_is deg av2v a ra -> exists b code rb, zget a2b a = Ok b /\ zget codes a = Ok code /\ good_code deg code /\ row_is deg bv2v b rb /\ align_adj deg code rb = Ok ra) /\
  (forall a ra, row_is deg av2v a ra -> (forall b, ~ matches deg bv2v ra b) \/ (exists b b', matches deg bv2v ra b /\ matches deg bv2v ra b' /\ b <> b') ->
    find_matches f dim av2v bv2v v2b = Abort).
Proof.
  intros Hdim deg La Lb HD HU HV. assert (2 <= deg <= 4) as Hdeg by (apply low_degree; lia).
  destruct (get_component_spec av2v deg 0 na ltac:(lia) La ltac:(lia)) as (a2fv & Ec & Lc & Gc).
  assert (forall a, 0 <= a < na -> zget a2fv a = zget av2v (a * deg)) as Hf0 by (intros a Ha; rewrite (Gc a Ha), Z.add_0_r; reflexivity).
  assert (find_matches f dim av2v bv2v v2b = find_matches_ex deg a2fv av2v bv2v v2b false) as ->.
  { unfold find_matches, check. destruct (Z.leb_spec dim 2); [|lia]. cbn [bind]. fold deg. rewrite Ec. reflexivity. }
  split.
  - intros HM. destruct (find_matches_ok deg nv na nb av2v bv2v a2fv v2b false Hdeg La Lb HD HU Lc Hf0 HV HM) as (a2b & codes & E & L1 & L2 & K).
    exists a2b, codes. repeat (split; [assumption|]). intros a ra R. destruct (K a ra R) as (b & c & rb & K1 & K2 & K3 & K4 & K5 & _). exists b, c, rb. auto.
  - intros a ra R HB. eapply (find_matches_abort deg nv na nb av2v bv2v a2fv v2b false Hdeg La Lb HD HU Lc Hf0 HV a ra R).
    destruct HB as [H|H]; [left; exact H|right; auto].
Qed.
Lemma find_matches_first deg nv na nb av2v bv2v a2fv v2b : 2 <= deg <= 4 -> zlen av2v = na * deg -> zlen bv2v = nb * deg -> rows_distinct deg bv2v -> is_up deg nv bv2v v2b ->
  zlen a2fv = na -> (forall a, 0 <= a < na -> zget a2fv a = zget av2v (a * deg)) -> (forall v, In v av2v -> 0 <= v < nv) ->
  (forall a ra, row_is deg av2v a ra -> exists b, matches deg bv2v ra b /\ forall b', matches deg bv2v ra b' -> b <= b') ->
  exists a2b codes, find_matches_ex deg a2fv av2v bv2v v2b true = Ok (a2b, codes) /\ zlen a2b = na /\ zlen codes = na /\
  forall a ra, row_is deg av2v a ra -> exists b code rb, zget a2b a = Ok b /\ zget codes a = Ok code /\ good_code deg code /\
    row_is deg bv2v b rb /\ align_adj deg code rb = Ok ra /\ forall b', matches deg bv2v ra b' -> b <= b'.
Proof. intros. eapply find_matches_ok with (allow := true); eassumption. Qed.
