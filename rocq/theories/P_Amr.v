(** Proofs for C83. *)
From Coq Require Import Lia.
From Verif Require Import Prelude M_Array M_Par P_Par M_Graph S_Graph P_Graph M_Mark S_Mark P_Mark M_Amr S_Amr.
Local Open Scope Z_scope.

Lemma mapM_or_abort {A B} (f : A -> res B) : forall l, (forall x, In x l -> (exists y, f x = Ok y) \/ f x = Abort) ->
  (exists r, mapM f l = Ok r) \/ (mapM f l = Abort /\ exists x, In x l /\ f x = Abort).
Proof.
  induction l as [|x l IH]; intros H; [left; exists []; reflexivity|].
  cbn [mapM]. destruct (H x (or_introl eq_refl)) as [[y E]|E]; rewrite E; cbn [bind].
  - destruct IH as [[r R]|[R (z & Z1 & Z2)]]; [intros; apply H; right; assumption| |]; rewrite R; cbn [bind].
    + left. eauto.
    + right. split; [reflexivity|]. exists z. split; [right; exact Z1|exact Z2].
  - right. split; [reflexivity|]. exists x. split; [left; reflexivity|exact E].
Qed.

Lemma truth_true x : truth x = true <-> x <> 0.
Proof. unfold truth. destruct (Z.eqb_spec x 0); cbn; split; congruence. Qed.
Lemma truth_false x : truth x = false <-> x = 0.
Proof. unfold truth. destruct (Z.eqb_spec x 0); cbn; split; congruence. Qed.
Lemma marked_get a i x : zget a i = Ok x -> (marked a i <-> x <> 0).
Proof. intros E. split; [intros (y & Ey & Hy); congruence|intros; exists x; auto]. Qed.

Section M.
Variables (m : hmesh) (marks : list Z).
Hypothesis HM : hmesh_ok m marks.
Set Default Proof Using "All".

Definition single (child : Z) : Prop := exists c, targets (h_up m) child = Ok [c].

Lemma child_ok child : 0 <= child < zlen (h_bridge_leaf m) ->
  (exists c mk, child_elem m marks child = Ok (c, mk) /\ targets (h_up m) child = Ok [c] /\ zget marks c = Ok mk /\ 0 <= c < h_nelems m) \/
  (child_elem m marks child = Abort /\ ~ single child).
Proof.
  intros Hc. destruct (ok_up _ _ HM) as (W & N & R). rewrite <- N in Hc.
  destruct (wf_targets _ _ W Hc) as (ts & Ht). destruct (targets_split _ _ _ Ht) as (lo & hi & E1 & E2 & E3).
  unfold child_elem. rewrite E1, E2. cbn [bind]. destruct (Z.eqb_spec (hi - lo) 1) as [E|E]; cbn [check bind].
  - left. assert (hi = lo + 1) by lia. subst hi. rewrite zfromto_cons, zfromto_nil in E3 by lia. cbn [mapM] in E3.
    apply bind_ok in E3 as (c & Ec & E3). cbn [bind] in E3. injection E3 as <-. rewrite Ec. cbn [bind].
    assert (Hr := R c (zget_In _ _ _ Ec)). destruct (zget_in_range marks c) as (mk & Em); [rewrite (ok_marks _ _ HM); exact Hr|].
    rewrite Em. cbn [bind]. exists c, mk. destruct (Z.leb_spec 0 c), (Z.ltb_spec c (h_nelems m)); try lia. cbn [andb]. auto.
  - right. split; [reflexivity|]. intros (c & Ec). assert (ts = [c]) as -> by congruence. apply mapM_length in E3. cbn in E3.
    assert (lo <= hi). { destruct (Z_le_gt_dec lo hi); [assumption|]. rewrite zfromto_nil in E3 by lia. discriminate. }
    pose proof (zlen_zfromto lo hi H) as L. unfold zlen in L. rewrite <- E3 in L. cbn in L. lia.
Qed.

Lemma bridge_ok bridge : 0 <= bridge < zlen (h_bridge_leaf m) ->
  (exists l, bridge_elems m marks bridge = Ok l /\
     (forall c mk, In (c, mk) l <-> marked (h_interior m) bridge /\ ~ marked (h_bridge_leaf m) bridge /\ (exists child, edge (h_children m) bridge child /\ targets (h_up m) child = Ok [c]) /\ zget marks c = Ok mk) /\
     (marked (h_interior m) bridge -> ~ marked (h_bridge_leaf m) bridge -> forall child, edge (h_children m) bridge child -> single child)) \/
  (bridge_elems m marks bridge = Abort /\ marked (h_interior m) bridge /\ ~ marked (h_bridge_leaf m) bridge /\ exists child, edge (h_children m) bridge child /\ ~ single child).
Proof.
  intros Hb. unfold bridge_elems.
  destruct (zget_in_range (h_interior m) bridge) as (i & Ei); [rewrite (ok_interior _ _ HM); exact Hb|].
  destruct (zget_in_range (h_bridge_leaf m) bridge Hb) as (l & El).
  pose proof (marked_get _ _ _ Ei) as Mi. pose proof (marked_get _ _ _ El) as Ml.
  rewrite Ei. cbn [bind]. destruct (truth i) eqn:Ti; cbn [negb].
  2: { apply truth_false in Ti. left. exists []. split; [reflexivity|]. split; [|intros Q; apply Mi in Q; contradiction].
       intros c mk. split; [intros []|]. intros (Q & _). apply Mi in Q. contradiction. }
  apply truth_true in Ti. rewrite El. cbn [bind]. destruct (truth l) eqn:Tl.
  { apply truth_true in Tl. left. exists []. split; [reflexivity|]. split; [|intros _ Q; exfalso; apply Q, Ml, Tl].
    intros c mk. split; [intros []|]. intros (_ & Q & _). exfalso. apply Q, Ml, Tl. }
  apply truth_false in Tl. assert (Q1 : marked (h_interior m) bridge) by (apply Mi; exact Ti). assert (Q2 : ~ marked (h_bridge_leaf m) bridge) by (rewrite Ml; lia).
  destruct (ok_children _ _ HM) as (W & N & R). rewrite <- N in Hb. destruct (wf_targets _ _ W Hb) as (ts & Ht). destruct (targets_split _ _ _ Ht) as (lo & hi & E1 & E2 & E3).
  rewrite E1, E2. cbn [bind].
  assert (Hin : forall child, In child ts -> 0 <= child < zlen (h_bridge_leaf m)).
  { intros child Hc. destruct (mapM_in_inv _ _ _ _ E3 Hc) as (k & Ek & _). apply R. exact (zget_In _ _ _ Ek). }
  destruct (mapM_or_abort (fun c => child <- zget (ab2b (h_children m)) c ;; child_elem m marks child) (zfromto lo hi)) as [[r Er]|[Er (k & Hk & Ek)]].
  { intros k Hk. destruct (mapM_in _ _ _ _ E3 Hk) as (child & Ec & Hc). rewrite Ec. cbn [bind].
    destruct (child_ok child (Hin _ Hc)) as [(c & mk & E & _)|[E _]]; rewrite E; eauto. }
  - left. exists r. split; [exact Er|]. split.
    + intros c mk. split.
      * intros H. destruct (mapM_in_inv _ _ _ _ Er H) as (k & Ek & Hk). destruct (mapM_in _ _ _ _ E3 Hk) as (child & Ec & Hc). rewrite Ec in Ek. cbn [bind] in Ek.
        destruct (child_ok child (Hin _ Hc)) as [(c' & mk' & E & F1 & F2 & _)|[E _]]; rewrite E in Ek; [|discriminate]. injection Ek as -> ->.
        split; [exact Q1|]. split; [exact Q2|]. split; [|exact F2]. exists child. split; [exists ts; auto|exact F1].
      * intros (_ & _ & (child & (ts' & Ht' & Hc) & Hs) & Hm). assert (ts' = ts) as -> by congruence.
        destruct (mapM_in_inv _ _ _ _ E3 Hc) as (k & Ek & Hk). destruct (mapM_in _ _ _ _ Er Hk) as (y & Ey & Hy). rewrite Ek in Ey. cbn [bind] in Ey.
        destruct (child_ok child (Hin _ Hc)) as [(c' & mk' & E & F1 & F2 & _)|[E _]]; rewrite E in Ey; [|discriminate]. injection Ey as <-.
        assert (c' = c) as -> by congruence. assert (mk' = mk) as -> by congruence. exact Hy.
    + intros _ _ child (ts' & Ht' & Hc). assert (ts' = ts) as -> by congruence.
      destruct (mapM_in_inv _ _ _ _ E3 Hc) as (k & Ek & Hk). destruct (mapM_in _ _ _ _ Er Hk) as (y & Ey & Hy). rewrite Ek in Ey. cbn [bind] in Ey.
      destruct (child_ok child (Hin _ Hc)) as [(c' & mk' & E & F1 & _)|[E _]]; rewrite E in Ey; [|discriminate]. exists c'. exact F1.
  - right. split; [exact Er|]. split; [exact Q1|]. split; [exact Q2|]. destruct (mapM_in _ _ _ _ E3 Hk) as (child & Ec & Hc). rewrite Ec in Ek. cbn [bind] in Ek.
    exists child. split; [exists ts; auto|]. destruct (child_ok child (Hin _ Hc)) as [(c' & mk' & E & _)|[_ E]]; [rewrite E in Ek; discriminate|exact E].
Qed.

Lemma down_get e k : 0 <= e < h_nelems m -> 0 <= k < h_deg m -> exists b, zget (h_down m) (e * h_deg m + k) = Ok b /\ 0 <= b < zlen (h_bridge_leaf m).
Proof.
  intros He Hk. destruct (ok_down _ _ HM) as [L R]. destruct (zget_in_range (h_down m) (e * h_deg m + k)) as (b & Eb); [rewrite L; clear - He Hk; nia|].
  exists b. split; [exact Eb|]. apply R. exact (zget_In _ _ _ Eb).
Qed.

Definition sees (e : Z) (cs : list (Z * Z)) : Prop := forall c mk, In (c, mk) cs <-> finer m e c /\ zget marks c = Ok mk.

Lemma looked_ok e : 0 <= e < h_nelems m ->
  (exists cs, looked_at m marks e = Ok cs /\ sees e cs /\ forall child, part_of_side m e child -> single child) \/
  (looked_at m marks e = Abort /\ exists child, part_of_side m e child /\ ~ single child).
Proof.
  intros He. unfold looked_at.
  destruct (mapM_or_abort (fun b => bridge <- zget (h_down m) (e * h_deg m + b) ;; bridge_elems m marks bridge) (zrange (h_deg m))) as [[rs Er]|[Er (k & Hk & Ek)]].
  { intros k Hk. apply in_zrange in Hk. destruct (down_get e k He Hk) as (b & Eb & Hb). rewrite Eb. cbn [bind].
    destruct (bridge_ok b Hb) as [(l & E & _)|[E _]]; rewrite E; eauto. }
  - left. rewrite Er. cbn [bind]. exists (concat rs). split; [reflexivity|]. split.
    + intros c mk. rewrite in_concat. split.
      * intros (l & Hl & Hc). destruct (mapM_in_inv _ _ _ _ Er Hl) as (k & Ek & Hk). apply in_zrange in Hk. destruct (down_get e k He Hk) as (b & Eb & Hb). rewrite Eb in Ek. cbn [bind] in Ek.
        destruct (bridge_ok b Hb) as [(l' & E & I & _)|[E _]]; rewrite E in Ek; [|discriminate]. injection Ek as ->. apply I in Hc. destruct Hc as (Q1 & Q2 & (child & Q3 & Q4) & Q5).
        split; [|exact Q5]. exists child. split; [|exact Q4]. exists k, b. auto.
      * intros ((child & (k & b & Hk & Eb & Q1 & Q2 & Q3) & Q4) & Q5). destruct (mapM_in _ _ _ k Er) as (l & El & Hl); [apply in_zrange; exact Hk|]. rewrite Eb in El. cbn [bind] in El.
        exists l. split; [exact Hl|]. destruct (down_get e k He Hk) as (b' & Eb' & Hb). assert (b' = b) as -> by congruence.
        destruct (bridge_ok b Hb) as [(l' & E & I & _)|[E _]]; rewrite E in El; [|discriminate]. injection El as ->. apply I. split; [exact Q1|]. split; [exact Q2|]. split; [|exact Q5]. eauto.
    + intros child (k & b & Hk & Eb & Q1 & Q2 & Q3). destruct (mapM_in _ _ _ k Er) as (l & El & Hl); [apply in_zrange; exact Hk|]. rewrite Eb in El. cbn [bind] in El.
      destruct (down_get e k He Hk) as (b' & Eb' & Hb). assert (b' = b) as -> by congruence.
      destruct (bridge_ok b Hb) as [(l' & E & I & S)|[E _]]; rewrite E in El; [|discriminate]. exact (S Q1 Q2 child Q3).
  - right. rewrite Er. split; [reflexivity|]. apply in_zrange in Hk. destruct (down_get e k He Hk) as (b & Eb & Hb). rewrite Eb in Ek. cbn [bind] in Ek.
    destruct (bridge_ok b Hb) as [(l' & E & _)|(E & Q1 & Q2 & child & Q3 & Q4)]; [rewrite E in Ek; discriminate|]. exists child. split; [|exact Q4]. exists k, b. auto.
Qed.

Variable before : mem Z.

Definition final (e v : Z) : Prop := (v = 0 /\ ~ must m marks e) \/ (v = 1 /\ may m marks before e).

Definition pending (e : Z) (p : prog Z) : Prop :=
  (exists v, p = Wr (place e) v Done /\ final e v) \/
  (marked (h_elem_leaf m) e /\ ~ marked marks e /\ exists mk dn rest, p = look e mk rest /\ sees e (dn ++ rest) /\ ((mk = 0 /\ forall c cm, In (c, cm) dn -> cm = 0) \/ (mk = 1 /\ may m marks before e))).

Lemma one_ok e : 0 <= e < h_nelems m ->
  (exists p, enforce_one m marks e = Ok p /\ pending e p) \/
  (enforce_one m marks e = Abort /\ marked (h_elem_leaf m) e /\ ~ marked marks e /\ exists child, part_of_side m e child /\ ~ single child).
Proof.
  intros He. unfold enforce_one.
  destruct (zget_in_range (h_elem_leaf m) e) as (l & El); [rewrite (ok_leaf _ _ HM); exact He|].
  destruct (zget_in_range marks e) as (mk & Em); [rewrite (ok_marks _ _ HM); exact He|].
  pose proof (marked_get _ _ _ El) as Ml. pose proof (marked_get _ _ _ Em) as Mm.
  rewrite El. cbn [bind]. destruct (truth l) eqn:Tl; cbn [negb].
  2: { apply truth_false in Tl. left. eexists. split; [reflexivity|]. left. exists 0. split; [reflexivity|]. left. split; [reflexivity|]. intros [Q _]. apply Ml in Q. contradiction. }
  apply truth_true in Tl. rewrite Em. cbn [bind]. destruct (truth mk) eqn:Tm.
  { apply truth_true in Tm. left. eexists. split; [reflexivity|]. left. exists 1. split; [reflexivity|]. right. split; [reflexivity|]. apply may_marked; [apply Ml|apply Mm]; assumption. }
  apply truth_false in Tm. assert (Q1 : marked (h_elem_leaf m) e) by (apply Ml; exact Tl). assert (Q2 : ~ marked marks e) by (rewrite Mm; lia).
  destruct (looked_ok e He) as [(cs & E & S & _)|(E & child & P & N)]; rewrite E; cbn [bind].
  - left. eexists. split; [reflexivity|]. right. split; [exact Q1|]. split; [exact Q2|]. exists 0, [], cs. split; [reflexivity|]. split; [exact S|]. left. split; [reflexivity|]. intros ? ? [].
  - right. split; [reflexivity|]. split; [exact Q1|]. split; [exact Q2|]. eauto.
Qed.

Lemma finer_range e c : finer m e c -> 0 <= c < h_nelems m.
Proof.
  intros (child & _ & T). destruct (ok_up _ _ HM) as (_ & _ & R). destruct (targets_split _ _ _ T) as (lo & hi & _ & _ & E).
  destruct (mapM_in_inv _ _ _ c E (or_introl eq_refl)) as (k & Ek & _). apply R. exact (zget_In _ _ _ Ek).
Qed.

Definition inv (st : mem Z * list (prog Z)) : Prop := zlen (snd st) = h_nelems m /\
  forall i p, nth_error (snd st) i = Some p -> (p = Done /\ final (Z.of_nat i) (fst st (0%nat, i))) \/ (fst st (0%nat, i) = before (0%nat, i) /\ pending (Z.of_nat i) p).

Lemma inv_hot st c : inv st -> 0 <= c < h_nelems m -> fst st (place c) <> 0 -> before (place c) <> 0 \/ may m marks before c.
Proof.
  intros [L I] Hc Hn. unfold place in *. destruct (nth_error (snd st) (Z.to_nat c)) as [p|] eqn:E.
  - destruct (I _ _ E) as [[_ F]|[F _]].
    + rewrite Z2Nat.id in F by lia. destruct F as [[F _]|[_ F]]; [contradiction|right; exact F].
    + left. congruence.
  - exfalso. apply nth_error_None in E. unfold zlen in L. lia.
Qed.

Lemma place_nat i : place (Z.of_nat i) = (0%nat, i).
Proof. unfold place. rewrite Nat2Z.id. reflexivity. Qed.

Lemma inv_write st i v : inv st -> nth_error (snd st) i = Some (Wr (place (Z.of_nat i)) v Done) -> final (Z.of_nat i) v ->
  inv (upd (fst st) (place (Z.of_nat i)) v, list_set (snd st) i Done).
Proof.
  intros [L I] E F. split.
  - cbn [snd]. unfold zlen. rewrite list_set_length. exact L.
  - intros j p Hj. cbn [fst snd] in *. destruct (Nat.eq_dec j i) as [->|Hn].
    + rewrite list_set_nth_eq in Hj by (apply nth_error_Some; congruence). injection Hj as <-. left. split; [reflexivity|]. rewrite <- place_nat, upd_eq. exact F.
    + rewrite list_set_nth_ne in Hj by congruence. rewrite place_nat, upd_ne by congruence. exact (I j p Hj).
Qed.

Lemma inv_step st i : inv st -> inv (step st i).
Proof.
  intros HI. unfold step. destruct (nth_error (snd st) i) as [p|] eqn:E; [|exact HI].
  assert (Hr : 0 <= Z.of_nat i < h_nelems m). { destruct HI as [L _]. unfold zlen in L. assert (i < length (snd st))%nat by (apply nth_error_Some; congruence). lia. }
  destruct (proj2 HI i p E) as [[-> F]|[F Pd]].
  - cbn [step1]. destruct HI as [L I]. split.
    + cbn [snd]. unfold zlen. rewrite list_set_length. exact L.
    + intros j q Hj. cbn [fst snd] in *. destruct (Nat.eq_dec j i) as [->|Hn].
      * rewrite list_set_nth_eq in Hj by (apply nth_error_Some; congruence). injection Hj as <-. left. auto.
      * rewrite list_set_nth_ne in Hj by congruence. exact (I j q Hj).
  - destruct Pd as [(v & -> & Fv)|(Q1 & Q2 & mk & dn & rest & -> & S & B)].
    + cbn [step1]. apply inv_write; assumption.
    + destruct rest as [|[c cm] rest]; cbn [look step1].
      * cbn [look] in E. apply inv_write; [exact HI|exact E|]. destruct B as [[-> B]|[-> B]]; [left|right; auto]. split; [reflexivity|].
        intros [_ [K|(c & K1 & K2)]]; [contradiction|]. destruct K2 as (x & Ex & Hx). rewrite app_nil_r in S.
        apply Hx. apply (B c x). apply S. auto.
      * assert (Hc : finer m (Z.of_nat i) c /\ zget marks c = Ok cm) by (apply S; apply in_elt). destruct Hc as [Hf Hm].
        pose proof (inv_hot st c HI (finer_range _ _ Hf)) as Hot.
        destruct HI as [L I]. split.
        { cbn [snd]. unfold zlen. rewrite list_set_length. exact L. }
        intros j q Hj. cbn [fst snd] in *. destruct (Nat.eq_dec j i) as [->|Hn].
        2: { rewrite list_set_nth_ne in Hj by congruence. exact (I j q Hj). }
        rewrite list_set_nth_eq in Hj by (apply nth_error_Some; congruence). injection Hj as <-. right. split; [exact F|]. right. split; [exact Q1|]. split; [exact Q2|].
        eexists _, (dn ++ [(c, cm)]), rest. split; [reflexivity|]. split; [rewrite <- app_assoc; exact S|].
        destruct (truth cm) eqn:Tc; cbn [orb].
        -- right. split; [reflexivity|]. apply truth_true in Tc. apply may_beside with c; [exact Q1|exact Hf|]. exists cm. auto.
        -- apply truth_false in Tc. destruct (truth (fst st (place c))) eqn:Tv.
           ++ right. split; [reflexivity|]. apply truth_true in Tv. destruct (Hot Tv); [apply may_stale with c|apply may_chain with c]; assumption.
           ++ destruct B as [[-> B]|[-> B]]; [left|right; auto]. split; [reflexivity|]. intros c' cm' Hin. apply in_app_iff in Hin. destruct Hin as [Hin|[Hin|[]]]; [exact (B _ _ Hin)|]. congruence.
Qed.

Lemma inv_run s : forall st, inv st -> inv (run st s).
Proof. induction s as [|i s IH]; intros st H; [exact H|]. cbn. apply IH, inv_step, H. Qed.

Lemma inv_start ps : tabulate (h_nelems m) (enforce_one m marks) = Ok ps -> inv (before, ps).
Proof.
  intros E. apply (tabulate_ok _ _ _ (ok_nelems _ _ HM)) in E as [L G]. split; [exact L|]. intros i p Hi. cbn [fst snd] in *. right. split; [reflexivity|].
  assert (Hr : 0 <= Z.of_nat i < h_nelems m) by (rewrite <- L; unfold zlen; assert (i < length ps)%nat by (apply nth_error_Some; congruence); lia).
  destruct (G _ Hr) as (x & X1 & X2). assert (zget ps (Z.of_nat i) = Ok p) by (apply zget_nat; exact Hi). assert (x = p) as -> by congruence.
  destruct (one_ok _ Hr) as [(q & Eq & P)|(Eq & _)]; rewrite Eq in X2 || rewrite Eq in X1; congruence.
Qed.

Lemma inv_final st : inv st -> forallb is_done (snd st) = true -> forall e, 0 <= e < h_nelems m -> final e (fst st (place e)).
Proof.
  intros [L I] D e He. rewrite forallb_forall in D. destruct (nth_error (snd st) (Z.to_nat e)) as [p|] eqn:E.
  - specialize (D p (nth_error_In _ _ E)). destruct (I _ _ E) as [[_ F]|[_ [(v & -> & _)|(_ & _ & mk & dn & rest & -> & _)]]].
    + rewrite Z2Nat.id in F by lia. exact F.
    + discriminate.
    + destruct rest as [|[c cm] rest]; discriminate.
  - exfalso. apply nth_error_None in E. unfold zlen in L. lia.
Qed.

Lemma enforce_right schedule ed bd r : enforce_2to1_refine before schedule m ed bd marks = Ok (Some r) ->
  zlen r = h_nelems m /\ forall e, 0 <= e < h_nelems m -> (zget r e = Ok 0 /\ ~ must m marks e) \/ (zget r e = Ok 1 /\ may m marks before e).
Proof.
  unfold enforce_2to1_refine. intros H. apply bind_ok in H as (u1 & _ & H). apply bind_ok in H as (u2 & _ & H). apply bind_ok in H as (ps & Ep & H).
  injection H as H. destruct (forallb is_done (snd (run (before, ps) schedule))) eqn:D; [|discriminate]. injection H as <-.
  split; [rewrite zlen_map, zlen_zrange; [reflexivity|exact (ok_nelems _ _ HM)]|].
  intros e He. rewrite zget_map, zget_zrange by exact He. cbn [bind].
  destruct (inv_final _ (inv_run schedule _ (inv_start ps Ep)) D e He) as [[-> F]|[-> F]]; auto.
Qed.

Lemma enforce_cases ed bd : 0 < bd < ed ->
  (one_sided m marks /\ (forall schedule, exists o, enforce_2to1_refine before schedule m ed bd marks = Ok o) /\ (exists schedule r, enforce_2to1_refine before schedule m ed bd marks = Ok (Some r))) \/
  (~ one_sided m marks /\ forall schedule, enforce_2to1_refine before schedule m ed bd marks = Abort).
Proof.
  intros Hd. unfold enforce_2to1_refine. destruct (Z.ltb_spec 0 bd) as [_|]; [|lia]. destruct (Z.ltb_spec bd ed) as [_|]; [|lia]. cbn [check bind].
  destruct (mapM_or_abort (enforce_one m marks) (zrange (h_nelems m))) as [[ps Ep]|[Ep (e & He & Ee)]].
  { intros e He. apply in_zrange in He. destruct (one_ok e He) as [(p & E & _)|(E & _)]; rewrite E; eauto. }
  - unfold tabulate. rewrite Ep. cbn [bind]. left. split; [|split; [eauto|]].
    + intros e child He Q1 Q2 P. destruct (mapM_in _ _ _ e Ep) as (p & Epp & _); [apply in_zrange; exact He|].
      revert Epp. unfold enforce_one.
      destruct (zget_in_range (h_elem_leaf m) e) as (l & El); [rewrite (ok_leaf _ _ HM); exact He|].
      destruct (zget_in_range marks e) as (mk & Em); [rewrite (ok_marks _ _ HM); exact He|].
      rewrite El, Em. cbn [bind]. apply (marked_get _ _ _ El) in Q1. rewrite (marked_get _ _ _ Em) in Q2.
      rewrite (proj2 (truth_true l) Q1). cbn [negb]. destruct (truth mk) eqn:Tm; [apply truth_true in Tm; contradiction|].
      destruct (looked_ok e He) as [(cs & E & _ & S)|(E & _)]; rewrite E; cbn [bind]; [|discriminate]. intros _. exact (S child P).
    + destruct (serial_complete_schedule Z before ps) as (s & D & _). exists s. eexists.
      assert (E : forallb is_done (snd (run (before, ps) s)) = true).
      { apply forallb_forall. intros p Hp. unfold all_done in D. rewrite Forall_forall in D. rewrite (D p Hp). reflexivity. }
      rewrite E. reflexivity.
  - unfold tabulate. rewrite Ep. cbn [bind]. right. split; [|reflexivity]. apply in_zrange in He. destruct (one_ok e He) as [(p & E & _)|(E & Q1 & Q2 & child & P & N)]; [congruence|].
    intros O. apply N. exact (O e child He Q1 Q2 P).
Qed.

Lemma enforce_total ed bd : 0 < bd < ed ->
  (one_sided m marks -> (forall schedule, exists o, enforce_2to1_refine before schedule m ed bd marks = Ok o) /\ (exists schedule r, enforce_2to1_refine before schedule m ed bd marks = Ok (Some r))) /\
  (~ one_sided m marks -> forall schedule, enforce_2to1_refine before schedule m ed bd marks = Abort).
Proof. intros H. destruct (enforce_cases ed bd H) as [(A & B)|(A & B)]; split; auto; intros; contradiction. Qed.

Lemma enforce_ok_one_sided schedule ed bd o : 0 < bd < ed -> enforce_2to1_refine before schedule m ed bd marks = Ok o -> one_sided m marks.
Proof. intros H E. destruct (enforce_cases ed bd H) as [(A & _)|(_ & B)]; [exact A|]. rewrite B in E. discriminate. Qed.

Lemma enforce_exact schedule ed bd r : (forall e, before (place e) = 0) -> (forall e c, marked (h_elem_leaf m) e -> finer m e c -> must m marks c -> must m marks e) ->
  enforce_2to1_refine before schedule m ed bd marks = Ok (Some r) -> forall e, 0 <= e < h_nelems m -> says r e (must m marks e).
Proof.
  intros HB HC HE e He. destruct (proj2 (enforce_right _ _ _ _ HE) e He) as [[E N]|[E Y]]; [right; auto|left]. split; [exact E|].
  clear - Y HB HC. induction Y as [e Q1 Q2|e c Q1 Q2 Q3|e c Q1 Q2 Q3 IH|e c Q1 Q2 Q3].
  - split; auto.
  - split; [exact Q1|]. right. eauto.
  - apply HC with c; auto.
  - exfalso. apply Q3, HB.
Qed.

End M.

(** Dropping children. *)
Section D.
Variables (children : graph) (leaf marks : list Z).
Hypothesis (HW : wf_graph children) (HN : nnodes children = zlen leaf) (HR : forall c, In c (ab2b children) -> 0 <= c < zlen leaf) (HK : zlen marks = zlen leaf).
Set Default Proof Using "All".

Definition writes (cs : list Z) : prog Z := fold_right (fun child p => Wr (place child) 0 p) Done cs.
Definition drops (p : Z) (cs : list Z) : Prop := forall c, In c cs <-> marked leaf c /\ marked marks p /\ edge children p c.

Lemma drop_ok p : 0 <= p < zlen leaf -> exists cs, drop_children children leaf marks p = Ok (writes cs) /\ drops p cs.
Proof.
  intros Hp. unfold drop_children. destruct (zget_in_range marks p) as (mk & Em); [lia|]. rewrite Em. cbn [bind]. pose proof (marked_get _ _ _ Em) as Mm.
  destruct (truth mk) eqn:Tm; cbn [negb].
  2: { apply truth_false in Tm. exists []. split; [reflexivity|]. intros c. split; [intros []|]. intros (_ & Q & _). apply Mm in Q. contradiction. }
  apply truth_true in Tm. apply Mm in Tm. rewrite <- HN in Hp. destruct (wf_targets _ _ HW Hp) as (ts & Ht). destruct (targets_split _ _ _ Ht) as (lo & hi & E1 & E2 & E3). rewrite E1, E2. cbn [bind].
  assert (Hin : forall c, In c ts -> exists l, zget leaf c = Ok l).
  { intros c Hc. destruct (mapM_in_inv _ _ _ _ E3 Hc) as (k & Ek & _). apply zget_in_range, HR. exact (zget_In _ _ _ Ek). }
  destruct (mapM_or_abort (fun idx => child <- zget (ab2b children) idx ;; l <- zget leaf child ;; Ok (if truth l then [child] else [])) (zfromto lo hi)) as [[ds Ed]|[Ed (k & Hk & Ek)]].
  { intros k Hk. destruct (mapM_in _ _ _ _ E3 Hk) as (c & Ec & Hc). destruct (Hin c Hc) as (l & El). rewrite Ec. cbn [bind]. rewrite El. cbn [bind]. eauto. }
  2: { exfalso. destruct (mapM_in _ _ _ _ E3 Hk) as (c & Ec & Hc). destruct (Hin c Hc) as (l & El). rewrite Ec in Ek. cbn [bind] in Ek. rewrite El in Ek. discriminate. }
  rewrite Ed. cbn [bind]. exists (concat ds). split; [reflexivity|]. intros c. rewrite in_concat. split.
  - intros (d & Hd & Hc). destruct (mapM_in_inv _ _ _ _ Ed Hd) as (k & Ek & Hk). destruct (mapM_in _ _ _ _ E3 Hk) as (c' & Ec & Hc'). destruct (Hin c' Hc') as (l & El).
    rewrite Ec in Ek. cbn [bind] in Ek. rewrite El in Ek. cbn [bind] in Ek. injection Ek as <-. destruct (truth l) eqn:Tl; [|destruct Hc]. destruct Hc as [->|[]]. apply truth_true in Tl.
    split; [exists l; auto|]. split; [exact Tm|]. exists ts; auto.
  - intros ((l & El & Hl) & _ & (ts' & Ht' & Hc)). assert (ts' = ts) as -> by congruence. destruct (mapM_in_inv _ _ _ _ E3 Hc) as (k & Ek & Hk). destruct (mapM_in _ _ _ _ Ed Hk) as (d & E & Hd).
    rewrite Ek in E. cbn [bind] in E. rewrite El in E. cbn [bind] in E. apply truth_true in Hl. rewrite Hl in E. injection E as <-. exists [c]. split; [exact Hd|left; reflexivity].
Qed.

Definition dropped (c : Z) : Prop := marked leaf c /\ exists p, marked marks p /\ edge children p c.

Definition dinv (st : mem Z * list (prog Z)) : Prop := zlen (snd st) = zlen leaf /\
  (forall c, 0 <= c < zlen leaf -> fst st (place c) = 1 \/ (fst st (place c) = 0 /\ dropped c)) /\
  forall i p, nth_error (snd st) i = Some p -> exists dn rest, p = writes rest /\ drops (Z.of_nat i) (dn ++ rest) /\ forall c, In c dn -> fst st (place c) = 0.

Lemma dinv_step st i : dinv st -> dinv (step st i).
Proof.
  intros (L & V & I). unfold step. destruct (nth_error (snd st) i) as [p|] eqn:E; [|exact (conj L (conj V I))].
  destruct (I i p E) as (dn & rest & -> & S & Z0). destruct rest as [|c rest]; cbn [writes fold_right step1].
  - split; [cbn [snd]; unfold zlen; rewrite list_set_length; exact L|]. split; [exact V|]. intros j q Hj. cbn [fst snd] in *. destruct (Nat.eq_dec j i) as [->|Hn].
    + rewrite list_set_nth_eq in Hj by (apply nth_error_Some; congruence). injection Hj as <-. exists dn, []. auto.
    + rewrite list_set_nth_ne in Hj by congruence. exact (I j q Hj).
  - assert (Hc : marked leaf c /\ marked marks (Z.of_nat i) /\ edge children (Z.of_nat i) c) by (apply S, in_elt).
    assert (U : forall d, fst st (place d) = 0 -> upd (fst st) (place c) 0 (place d) = 0).
    { intros d Hd. unfold place in *. destruct (Nat.eq_dec (Z.to_nat c) (Z.to_nat d)) as [Q|Q]; [rewrite Q; apply upd_eq|rewrite upd_ne by congruence; exact Hd]. }
    split; [cbn [snd]; unfold zlen; rewrite list_set_length; exact L|]. cbn [fst snd]. split.
    + intros d Hd. destruct (Z.eq_dec d c) as [->|Hn].
      * right. rewrite upd_eq. split; [reflexivity|]. split; [tauto|]. exists (Z.of_nat i). tauto.
      * rewrite upd_ne; [exact (V d Hd)|]. destruct Hc as [(l & El & _) _]. apply zget_ok in El. unfold place. intros Q. injection Q as Q. lia.
    + intros j q Hj. destruct (Nat.eq_dec j i) as [->|Hn].
      * rewrite list_set_nth_eq in Hj by (apply nth_error_Some; congruence). injection Hj as <-. exists (dn ++ [c]), rest. split; [reflexivity|]. split; [rewrite <- app_assoc; exact S|].
        intros d Hd. apply in_app_iff in Hd. destruct Hd as [Hd|[->|[]]]; [apply U; auto|apply upd_eq].
      * rewrite list_set_nth_ne in Hj by congruence. destruct (I j q Hj) as (dn' & rest' & F1 & F2 & F3). exists dn', rest'. auto.
Qed.

Lemma dinv_run s : forall st, dinv st -> dinv (run st s).
Proof. induction s as [|i s IH]; intros st H; [exact H|]. cbn. apply IH, dinv_step, H. Qed.

Lemma persisting_right : exists ps, tabulate (zlen leaf) (drop_children children leaf marks) = Ok ps /\ dinv (fun _ => 1, ps).
Proof.
  destruct (mapM_total (drop_children children leaf marks) (zrange (zlen leaf))) as (ps & Ep).
  { intros e He. apply in_zrange in He. destruct (drop_ok e He) as (cs & E & _). eauto. }
  exists ps. split; [exact Ep|]. change (mapM _ _) with (tabulate (zlen leaf) (drop_children children leaf marks)) in Ep. apply (tabulate_ok _ _ _ (zlen_nonneg _)) in Ep as [L G].
  split; [exact L|]. cbn [fst snd]. split; [auto|]. intros i p Hi.
  assert (Hr : 0 <= Z.of_nat i < zlen leaf) by (rewrite <- L; unfold zlen; assert (i < length ps)%nat by (apply nth_error_Some; congruence); lia).
  destruct (G _ Hr) as (x & X1 & X2). assert (zget ps (Z.of_nat i) = Ok p) by (apply zget_nat; exact Hi). assert (x = p) as -> by congruence.
  destruct (drop_ok _ Hr) as (cs & Eq & D). exists [], cs. split; [congruence|]. split; [exact D|]. intros ? [].
Qed.

Lemma persisting_ok :
  (forall schedule, exists o, mark_persisting_elems schedule children leaf marks = Ok o) /\
  (exists schedule r, mark_persisting_elems schedule children leaf marks = Ok (Some r)) /\
  forall schedule r, mark_persisting_elems schedule children leaf marks = Ok (Some r) ->
    zlen r = zlen leaf /\ forall c, 0 <= c < zlen leaf -> says r c (~ (marked leaf c /\ exists p, marked marks p /\ edge children p c)).
Proof.
  destruct persisting_right as (ps & Ep & D). unfold mark_persisting_elems. rewrite Ep. cbn [bind]. split; [eauto|]. split.
  - destruct (serial_complete_schedule Z (fun _ => 1) ps) as (s & F & _). exists s. eexists.
    assert (E : forallb is_done (snd (run (fun _ => 1, ps) s)) = true).
    { apply forallb_forall. intros p Hp. unfold all_done in F. rewrite Forall_forall in F. rewrite (F p Hp). reflexivity. }
    rewrite E. reflexivity.
  - intros s r H. injection H as H. destruct (forallb is_done (snd (run (fun _ => 1, ps) s))) eqn:F; [|discriminate]. injection H as <-.
    split; [rewrite zlen_map, zlen_zrange; [reflexivity|apply zlen_nonneg]|]. intros c Hc. destruct (dinv_run s _ D) as (L & V & I).
    rewrite forallb_forall in F. unfold says. rewrite !zget_map, !zget_zrange by exact Hc. cbn [bind].
    destruct (V c Hc) as [E|[E Q]]; rewrite E.
    + left. split; [reflexivity|]. intros (Q1 & p & Q2 & Q3).
      assert (Hp : 0 <= p < zlen leaf). { destruct Q2 as (x & Ex & _). apply zget_bounds in Ex. lia. }
      destruct (nth_error (snd (run (fun _ => 1, ps) s)) (Z.to_nat p)) as [q|] eqn:En; [|apply nth_error_None in En; unfold zlen in *; lia].
      destruct (I _ _ En) as (dn & rest & -> & S & Z0). rewrite Z2Nat.id in S by lia. specialize (F _ (nth_error_In _ _ En)). destruct rest; [|discriminate].
      rewrite app_nil_r in S. assert (In c dn) by (apply S; auto). specialize (Z0 c H). congruence.
    + right. split; [reflexivity|]. intros N. apply N. exact Q.
Qed.
End D.

Lemma refined_ok l2h leaf marks : wf_graph l2h -> nnodes l2h = zlen leaf -> (forall h, In h (ab2b l2h) -> 0 <= h < zlen marks) ->
  exists r, mark_refined l2h leaf marks = Ok r /\ zlen r = zlen leaf /\ forall x, 0 <= x < zlen leaf -> says r x (marked leaf x /\ exists e, edge l2h x e /\ marked marks e).
Proof.
  intros W N R. destruct (mark_down_spec l2h marks W R) as (dm & Ed & Ld & Sd). unfold mark_refined. rewrite Ed. cbn [bind]. rewrite N in Ld. rewrite Ld, Z.eqb_refl. cbn [check bind].
  rewrite N in Sd. destruct (tabulate_says (zlen leaf) (fun i => a <- zget leaf i ;; b <- zget dm i ;; Ok (mark (truth a && truth b)))
    (fun x => tells (marked leaf x /\ exists e, edge l2h x e /\ marked marks e)) (zlen_nonneg _)) as (r & E & L & G).
  - intros x Hx. destruct (zget_in_range leaf x Hx) as (a & Ea). destruct (zget_in_range dm x) as (b & Eb); [lia|]. rewrite Ea, Eb. cbn [bind]. eexists. split; [reflexivity|].
    pose proof (marked_get _ _ _ Ea) as Ma. pose proof (says_marked _ _ _ (Sd x Hx)) as Mb. rewrite (marked_get _ _ _ Eb) in Mb.
    destruct (truth a) eqn:Ta; cbn [andb mark].
    + apply truth_true in Ta. destruct (truth b) eqn:Tb; cbn [mark]; [apply truth_true in Tb; left; tauto|apply truth_false in Tb; right; split; [reflexivity|]]. rewrite <- Mb. tauto.
    + apply truth_false in Ta. right. split; [reflexivity|]. rewrite Ma. tauto.
  - exists r. split; [exact E|]. split; [exact L|]. intros x Hx. destruct (G x Hx) as (v & Ev & T). exact (says_of _ _ _ _ Ev T).
Qed.

Lemma ents_ok adj leaf ep : wf_graph adj -> nnodes adj = zlen leaf -> (forall h, In h (ab2b adj) -> 0 <= h < zlen ep) ->
  exists r, mark_persisting_ents adj leaf ep = Ok r /\ zlen r = zlen leaf /\ forall x, 0 <= x < zlen leaf -> says r x (~ marked leaf x \/ exists e, edge adj x e /\ marked ep e).
Proof.
  intros W N R. unfold mark_persisting_ents. 
  destruct (tabulate_says (zlen leaf) (fun ent =>
    l <- zget leaf ent ;;
    if negb (truth l) then Ok 1 else
    lo <- zget (a2ab adj) ent ;; hi <- zget (a2ab adj) (ent + 1) ;;
    foldM (fun persists idx => e <- zget (ab2b adj) idx ;; p <- zget ep e ;; Ok (if truth p then 1 else persists)) (zfromto lo hi) 0)
    (fun x => tells (~ marked leaf x \/ exists e, edge adj x e /\ marked ep e)) (zlen_nonneg _)) as (r & E & L & G).
  - intros x Hx. destruct (zget_in_range leaf x Hx) as (a & Ea). rewrite Ea. cbn [bind]. pose proof (marked_get _ _ _ Ea) as Ma. destruct (truth a) eqn:Ta; cbn [negb].
    2: { apply truth_false in Ta. exists 1. split; [reflexivity|]. left. split; [reflexivity|]. left. tauto. }
    apply truth_true in Ta. apply Ma in Ta. rewrite <- N in Hx. destruct (wf_targets adj x W Hx) as (ts & Ht). destruct (targets_split adj x ts Ht) as (lo & hi & E1 & E2 & E3). rewrite E1, E2. cbn [bind].
    rewrite (foldM_ext' _ (fun out lh => m <- (h <- zget (ab2b adj) lh ;; zget ep h) ;; Ok (if truth m then 1 else out))).
    2: { intros s y _. destruct (zget (ab2b adj) y); reflexivity. }
    destruct (or_fold (fun lh => h <- zget (ab2b adj) lh ;; zget ep h) (zfromto lo hi)) with (s := 0) as (v & Ev & Hv).
    { intros i Hi. destruct (mapM_in _ _ _ _ E3 Hi) as (h & Eh & _). rewrite Eh. cbn [bind]. apply zget_in_range, R. eapply zget_In, Eh. }
    exists v. split; [exact Ev|]. destruct Hv as [[-> (i & mm & Hi & Em & Hm)]|[-> H0]].
    + left. split; [reflexivity|]. right. apply bind_ok in Em as (h & Eh & Em). exists h. split; [|exists mm; auto]. exists ts. split; [exact Ht|]. destruct (mapM_in _ _ _ _ E3 Hi) as (h' & Eh' & Hh). congruence.
    + right. split; [reflexivity|]. intros [Q|(e & (ts' & Ht' & He) & (mm & Em & Hm))]; [contradiction|]. assert (ts' = ts) as -> by congruence.
      destruct (mapM_in_inv _ _ _ _ E3 He) as (k & Ek & Hk). apply Hm. apply (H0 k mm Hk). rewrite Ek. exact Em.
  - exists r. split; [exact E|]. split; [exact L|]. intros x Hx. destruct (G x Hx) as (v & Ev & T). exact (says_of _ _ _ _ Ev T).
Qed.

Lemma derefined_closed adj leaf ep r x e : wf_graph adj -> nnodes adj = zlen leaf -> (forall h, In h (ab2b adj) -> 0 <= h < zlen ep) ->
  mark_persisting_ents adj leaf ep = Ok r -> edge adj x e -> marked ep e -> marked r x.
Proof.
  intros W N R E X M. destruct (ents_ok adj leaf ep W N R) as (r' & E' & _ & S). assert (r' = r) as -> by congruence.
  assert (Hx : 0 <= x < zlen leaf). { destruct X as (ts & Ht & _). destruct (targets_split _ _ _ Ht) as (lo & hi & E1 & E2 & _). apply zget_bounds in E1. apply zget_bounds in E2. unfold nnodes in N. lia. }
  apply (says_marked _ _ _ (S x Hx)). right. eauto.
Qed.

Lemma enforce_total_w : forall m marks before ed bd, hmesh_ok m marks -> 0 < bd < ed ->
  (one_sided m marks -> (forall schedule, exists o, enforce_2to1_refine before schedule m ed bd marks = Ok o) /\ (exists schedule r, enforce_2to1_refine before schedule m ed bd marks = Ok (Some r))) /\
  (~ one_sided m marks -> forall schedule, enforce_2to1_refine before schedule m ed bd marks = Abort).
Proof. intros m marks before ed bd H. exact (enforce_total m marks H before ed bd). Qed.
Lemma enforce_right_w : forall m marks before schedule ed bd r, hmesh_ok m marks -> enforce_2to1_refine before schedule m ed bd marks = Ok (Some r) ->
  zlen r = h_nelems m /\ forall e, 0 <= e < h_nelems m -> (zget r e = Ok 0 /\ ~ must m marks e) \/ (zget r e = Ok 1 /\ may m marks before e).
Proof. intros m marks before s ed bd r H. exact (enforce_right m marks H before s ed bd r). Qed.
Lemma enforce_exact_w : forall m marks before schedule ed bd r, hmesh_ok m marks -> (forall e, before (place e) = 0) ->
  (forall e c, marked (h_elem_leaf m) e -> finer m e c -> must m marks c -> must m marks e) ->
  enforce_2to1_refine before schedule m ed bd marks = Ok (Some r) -> forall e, 0 <= e < h_nelems m -> says r e (must m marks e).
Proof. intros m marks before s ed bd r H. exact (enforce_exact m marks H before s ed bd r). Qed.
