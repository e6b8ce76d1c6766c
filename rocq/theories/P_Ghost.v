(** Proofs about multiply_fans and the kernel of push_elem_uses. *)
From Verif Require Import Prelude M_Array M_Par M_Scan M_Sort M_Map M_Tags M_Template M_Dist M_Owners M_Migrate M_Ghost S_Map P_Array P_Scan P_Fan P_Migrate.
Local Open Scope Z_scope.

(** ** products of degrees *)
Lemma multiply_each_same a b : zlen b = zlen a -> exists c, multiply_each a b = Ok c /\ zlen c = zlen a /\
  forall i x y, zget a i = Ok x -> zget b i = Ok y -> zget c i = Ok (x * y).
Proof.
  intros L. unfold multiply_each. pose proof (zlen_nonneg a) as N. rewrite blank_ok by lia. cbn [bind]. rewrite L.
  destruct (Z.eqb_spec (zlen a) 0) as [E|E].
  - rewrite E. cbn. exists []. split; [reflexivity|]. split; [reflexivity|]. intros i x y H. apply zget_bounds in H. lia.
  - unfold divide_no_remainder. destruct (Z.eqb_spec (zlen a) 0); [lia|]. rewrite Z.rem_same, Z.quot_same by lia. cbn [check Z.eqb negb bind].
    destruct (forM_invariant (fun n (c : list (option Z)) => zlen c = zlen a /\ forall i x y, 0 <= i < n -> zget a i = Ok x -> zget b i = Ok y -> zget c i = Ok (Some (x * y))) (zlen a) (repeat None (Z.to_nat (zlen a)))
      (fun c i => forM 1 c (fun c j => x <- zget a (i * 1 + j) ;; y <- zget b i ;; zset c (i * 1 + j) (Some (x * y))))) as (c & Ec & Lc & Gc); [lia| | |].
    + split; [rewrite zlen_repeat; lia|]. intros. lia.
    + intros i c Hi [Lc Gc]. unfold forM. change (zrange 1) with [0]. cbn [foldM bind]. rewrite Z.mul_1_r, Z.add_0_r.
      destruct (zget_in_range a i Hi) as (x & Hx). destruct (zget_in_range b i ltac:(lia)) as (y & Hy). rewrite Hx, Hy. cbn [bind].
      destruct (zset_in_range c i (Some (x * y)) ltac:(lia)) as (c' & Hc'). rewrite Hc'. cbn [bind]. exists c'. split; [reflexivity|]. split; [rewrite (zset_zlen _ _ _ _ Hc'); exact Lc|].
      intros i' x' y' Hi' Hx' Hy'. destruct (Z.eq_dec i' i) as [->|Ne]; [rewrite (zset_get_eq _ _ _ _ Hc'); congruence|]. rewrite (zset_get_ne _ _ _ _ _ Hc') by lia. apply Gc; auto. lia.
    + rewrite Ec. cbn [bind]. destruct (freeze_total c) as (l & El & Ll & Gl).
      * intros k Hk. destruct (zget_in_range a k ltac:(lia)) as (x & Hx). destruct (zget_in_range b k ltac:(lia)) as (y & Hy). eexists. apply Gc; eauto. lia.
      * exists l. split; [exact El|]. split; [lia|]. intros i x y Hx Hy. apply Gl. apply Gc; auto. eapply zget_bounds; eauto.
Qed.
Lemma multiply_fans_ok f g : is_fan f -> is_fan g -> zlen g = zlen f -> exists h, multiply_fans f g = Ok h /\ is_fan h /\ zlen h = zlen f /\
  forall q a b c d x y, zget f q = Ok a -> zget f (q + 1) = Ok b -> zget g q = Ok c -> zget g (q + 1) = Ok d -> zget h q = Ok x -> zget h (q + 1) = Ok y -> y = x + (b - a) * (d - c).
Proof.
  intros Ff Fg L. destruct (fan_last f Ff) as (_ & _ & _ & L1). destruct (fan_last g Fg) as (_ & _ & _ & L2).
  destruct (get_degrees_spec f L1) as (df & Ef & Lf & Gf). destruct (get_degrees_spec g L2) as (dg & Eg & Lg & Gg).
  destruct (multiply_each_same df dg ltac:(lia)) as (p & Ep & Lp & Gp). unfold multiply_fans. rewrite Ef, Eg. cbn [bind]. rewrite Ep. cbn [bind]. exists (offset_scan p). split; [reflexivity|].
  split; [|split; [rewrite offset_scan_length; lia|]].
  - apply offset_scan_fan. intros x Hx. apply P_Map.In_zget in Hx as (i & Hi). pose proof (zget_bounds _ _ _ Hi) as B.
    destruct (zget_in_range f i ltac:(lia)) as (a & Ha). destruct (zget_in_range f (i + 1) ltac:(lia)) as (b & Hb). destruct (zget_in_range g i ltac:(lia)) as (c & Hc). destruct (zget_in_range g (i + 1) ltac:(lia)) as (d & Hd).
    pose proof (Gp i _ _ (Gf i a b Ha Hb) (Gg i c d Hc Hd)) as E. pose proof (proj2 Ff i a b Ha Hb). pose proof (proj2 Fg i c d Hc Hd). assert (x = (b - a) * (d - c)) as -> by congruence. nia.
  - intros q a b c d x y Ha Hb Hc Hd Hx Hy. pose proof (Gp q _ _ (Gf q a b Ha Hb) (Gg q c d Hc Hd)) as E. destruct (offset_scan_step p q _ E) as (s & H1 & H2). congruence.
Qed.

(** ** filling an array from the left *)
Definition filled_to {A} (n : Z) (pre : list A) (st : list (option A) * Z) : Prop :=
  snd st = zlen pre /\ zlen pre <= n /\ fst st = map Some pre ++ repeat None (Z.to_nat (n - zlen pre)).
Lemma fill_one {A} n (pre : list A) w item x : filled_to n pre (w, item) -> zlen pre < n -> exists w', zset w item (Some x) = Ok w' /\ filled_to n (pre ++ [x]) (w', item + 1).
Proof.
  intros (E1 & E2 & E3) L. cbn in E1, E3. subst item.
  destruct (zset_in_range w (zlen pre) (Some x)) as (w' & Ew). { pose proof (zlen_nonneg pre). rewrite E3, zlen_app, zlen_map, zlen_repeat. lia. }
  exists w'. split; [exact Ew|]. split; [cbn; rewrite zlen_app; reflexivity|]. split; [rewrite zlen_app; change (zlen [x]) with 1; lia|]. cbn [fst].
  pose proof (zlen_nonneg pre) as N. assert (zlen w = n) as Lw by (rewrite E3, zlen_app, zlen_map, zlen_repeat; lia).
  assert (zlen (map Some (pre ++ [x]) ++ repeat None (Z.to_nat (n - zlen (pre ++ [x])))) = n) as L2. { rewrite zlen_app, zlen_map, zlen_repeat, zlen_app. change (zlen [x]) with 1. lia. }
  apply list_eq_zget; [rewrite (zset_zlen _ _ _ _ Ew); lia|]. rewrite (zset_zlen _ _ _ _ Ew), Lw. intros i Hi.
  assert (zlen (map (@Some A) (pre ++ [x])) = zlen pre + 1) as L3 by (rewrite zlen_map, zlen_app; reflexivity).
  destruct (Z.eq_dec i (zlen pre)) as [->|Ne].
  - rewrite (zset_get_eq _ _ _ _ Ew). rewrite zget_app_l by lia. rewrite map_app, zget_app_r by (rewrite zlen_map; lia). rewrite zlen_map, Z.sub_diag. reflexivity.
  - rewrite (zset_get_ne _ _ _ _ _ Ew) by lia. rewrite E3. destruct (Z.lt_ge_cases i (zlen pre)).
    + rewrite (zget_app_l (map Some pre)) by (rewrite zlen_map; lia). rewrite (zget_app_l (map Some (pre ++ [x]))) by lia. rewrite map_app, zget_app_l by (rewrite zlen_map; lia). reflexivity.
    + rewrite zget_app_r by (rewrite zlen_map; lia). rewrite zget_app_r by lia. rewrite L3, zlen_map.
      destruct (zget_in_range (repeat (@None A) (Z.to_nat (n - zlen pre))) (i - zlen pre)) as (o & Ho); [rewrite zlen_repeat; lia|].
      destruct (zget_in_range (repeat (@None A) (Z.to_nat (n - zlen (pre ++ [x])))) (i - (zlen pre + 1))) as (o' & Ho'); [rewrite zlen_repeat, zlen_app; change (zlen [x]) with 1; lia|].
      rewrite Ho, Ho'. apply zget_In, repeat_spec in Ho. apply zget_In, repeat_spec in Ho'. congruence.
Qed.
Lemma fill_done {A} n (pre : list A) w item : filled_to n pre (w, item) -> zlen pre = n -> freeze w = Ok pre.
Proof. intros (_ & _ & E) L. cbn in E. apply freeze_ok. rewrite E, L, Z.sub_diag. cbn. apply app_nil_r. Qed.

Section kernel.
Context (fu ranks idxs fv vranks vidxs : list Z).
Hypothesis Fu : is_fan fu.
Hypothesis Fv : is_fan fv.
Hypothesis Lf : zlen fu = zlen fv.
Hypothesis Lu : last_of fu = Ok (zlen ranks).
Hypothesis Lv : last_of fv = Ok (zlen vranks).
Hypothesis Li : zlen idxs = zlen ranks.
Hypothesis Lvi : zlen vidxs = zlen vranks.

Definition item_at (su sv : Z) (x : Z * Z * (Z * Z)) : Prop :=
  zget ranks su = Ok (fst (fst x)) /\ zget idxs su = Ok (snd (fst x)) /\ zget vranks sv = Ok (fst (snd x)) /\ zget vidxs sv = Ok (snd (snd x)).

Lemma fill_uses n sv us pre st : 0 <= sv < zlen vranks -> (forall su, In su us -> 0 <= su < zlen ranks) -> filled_to n pre st -> zlen pre + zlen us <= n ->
  exists ys st', foldM (fun st su => let '(w, item) := st in er <- zget ranks su ;; ei <- zget idxs su ;; vr <- zget vranks sv ;; vi <- zget vidxs sv ;;
        w <- zset w item (Some (er, ei, (vr, vi))) ;; Ok (w, item + 1)) us st = Ok st' /\ filled_to n (pre ++ ys) st' /\ zlen ys = zlen us /\
    forall x, In x ys <-> exists su, In su us /\ item_at su sv x.
Proof using Li Lvi.
  clear Fu Fv Lf Lu Lv. intros Bv. match goal with |- _ -> _ -> _ -> exists ys st', foldM ?F _ _ = _ /\ _ => set (G := F) end. revert pre st. induction us as [|su us IH]; intros pre st Bu F Ln.
  - exists [], st. rewrite app_nil_r. split; [reflexivity|]. split; [exact F|]. split; [reflexivity|]. intros x. split; [intros []|intros (? & [] & _)].
  - cbn [foldM]. destruct st as [w item]. assert (0 <= su < zlen ranks) as Bs by (apply Bu; left; reflexivity).
    destruct (zget_in_range ranks su Bs) as (er & Her). destruct (zget_in_range idxs su ltac:(lia)) as (ei & Hei). destruct (zget_in_range vranks sv Bv) as (vr & Hvr). destruct (zget_in_range vidxs sv ltac:(lia)) as (vi & Hvi).
    unfold G at 1. rewrite Her, Hei, Hvr, Hvi. cbn [bind]. assert (zlen (su :: us) = 1 + zlen us) as E1 by (unfold zlen; cbn [length]; lia). pose proof (zlen_nonneg us) as N.
    destruct (fill_one n pre w item (er, ei, (vr, vi)) F ltac:(lia)) as (w' & Ew & F'). rewrite Ew. cbn [bind].
    destruct (IH (pre ++ [(er, ei, (vr, vi))]) (w', item + 1)) as (ys & st' & Ef & Fs & Ly & Gy); [intros; apply Bu; right; assumption|exact F'|rewrite zlen_app; change (zlen [(er, ei, (vr, vi))]) with 1; lia|].
    exists ((er, ei, (vr, vi)) :: ys), st'. split; [exact Ef|]. split; [rewrite <- app_assoc in Fs; exact Fs|]. split; [rewrite E1; unfold zlen in *; cbn [length]; lia|].
    intros x. split.
    + intros [<-|H]; [exists su; split; [left; reflexivity|]; repeat split; assumption|]. apply Gy in H as (su' & I' & H). exists su'. split; [right; exact I'|exact H].
    + intros (su' & [<-|I'] & H); [left|right; apply Gy; eauto]. destruct H as (H1 & H2 & H3 & H4). destruct x as [[a b] [c d]]. cbn in *. congruence.
Qed.
Lemma fill_verts n ov ub ue vs pre st : zget fu ov = Ok ub -> zget fu (ov + 1) = Ok ue -> (forall sv, In sv vs -> 0 <= sv < zlen vranks) -> filled_to n pre st -> zlen pre + zlen vs * (ue - ub) <= n ->
  exists ys st', foldM (fun st sv => ub <- zget fu ov ;; ue <- zget fu (ov + 1) ;; foldM (fun st su => let '(w, item) := st in er <- zget ranks su ;; ei <- zget idxs su ;; vr <- zget vranks sv ;; vi <- zget vidxs sv ;;
        w <- zset w item (Some (er, ei, (vr, vi))) ;; Ok (w, item + 1)) (zfromto ub ue) st) vs st = Ok st' /\ filled_to n (pre ++ ys) st' /\ zlen ys = zlen vs * (ue - ub) /\
    forall x, In x ys <-> exists sv su, In sv vs /\ in_group fu ov su /\ item_at su sv x.
Proof using Fu Lu Li Lvi.
  intros Hub Hue. match goal with |- _ -> _ -> _ -> exists ys st', foldM ?F _ _ = _ /\ _ => set (G := F) end. revert pre st. induction vs as [|sv vs IH]; intros pre st Bv F Ln.
  - exists [], st. rewrite app_nil_r. split; [reflexivity|]. split; [exact F|]. split; [reflexivity|]. intros x. split; [intros []|intros (? & ? & [] & _)].
  - cbn [foldM]. unfold G at 1. rewrite Hub, Hue. cbn [bind]. assert (zlen (sv :: vs) = 1 + zlen vs) as E1 by (unfold zlen; cbn [length]; lia). pose proof (zlen_nonneg vs) as N.
    pose proof (proj2 Fu ov ub ue Hub Hue) as M. assert (zlen (zfromto ub ue) = ue - ub) as Lz. { clear - M. unfold zfromto. rewrite zlen_map, zlen_zrange; lia. }
    assert (forall su, In su (zfromto ub ue) <-> in_group fu ov su) as Ig. { intros su. rewrite in_zfromto. split; [intros H; exists ub, ue; auto|]. intros (lo & hi & H1 & H2 & H3). assert (lo = ub) by congruence. assert (hi = ue) by congruence. lia. }
    destruct (fill_uses n sv (zfromto ub ue) pre st) as (ys & st' & Ef & Fs & Ly & Gy); [apply Bv; left; reflexivity| |exact F|nia|].
    { intros su H. apply Ig in H. apply (in_group_range fu _ ov su Fu Lu H). }
    rewrite Ef. cbn [bind]. destruct (IH (pre ++ ys) st') as (zs & st2 & Ef2 & Fs2 & Lz2 & Gz); [intros; apply Bv; right; assumption|exact Fs|rewrite zlen_app; nia|].
    exists (ys ++ zs), st2. split; [exact Ef2|]. split; [rewrite <- app_assoc in Fs2; exact Fs2|]. split; [rewrite zlen_app; nia|].
    intros x. rewrite in_app_iff, Gy, Gz. split.
    + intros [(su & H1 & H2)|(sv' & su & H1 & H2)]; [exists sv, su; split; [left; reflexivity|]; split; [apply Ig; exact H1|exact H2]|exists sv', su; split; [right; exact H1|exact H2]].
    + intros (sv' & su & [<-|H1] & H2 & H3); [left; exists su; split; [apply Ig; exact H2|exact H3]|right; eauto].
Qed.

Lemma push_elem_uses1_ok : exists items, push_elem_uses1 fu ranks idxs fv vranks vidxs = Ok items /\
  forall x, In x items <-> exists q su sv, in_group fu q su /\ in_group fv q sv /\ item_at su sv x.
Proof using Fu Fv Lf Lu Lv Li Lvi.
  unfold push_elem_uses1. destruct (multiply_fans_ok fu fv Fu Fv (eq_sym Lf)) as (h & Eh & Fh & Lh & Gh). rewrite Eh. cbn [bind]. destruct (fan_last h Fh) as (n & En & Hn & L1). rewrite En. cbn [bind]. rewrite blank_ok by lia. cbn [bind].
  match goal with |- context [forM ?N ?W ?F] => destruct (forM_invariant (fun ov w => exists pre item, zget h ov = Ok item /\ filled_to n pre (w, item) /\
      forall x, In x pre <-> exists q su sv, q < ov /\ in_group fu q su /\ in_group fv q sv /\ item_at su sv x) N W F) as (w & Ew & pre & item & Hi & Fw & Gw) end; [lia| | |].
  - exists [], 0. split; [exact (proj1 Fh)|]. split; [split; [reflexivity|]; split; [change (zlen (@nil (Z*Z*(Z*Z)))) with 0; lia|]; change (zlen (@nil (Z*Z*(Z*Z)))) with 0; rewrite Z.sub_0_r; reflexivity|].
    intros x. split; [intros []|]. intros (q & su & sv & Hq & (lo & hi & H1 & _) & _). apply zget_bounds in H1. lia.
  - intros ov w Ho (pre & item & Hi & Fw & Gw). rewrite Hi. cbn [bind].
    destruct (zget_in_range fv ov ltac:(lia)) as (vb & Hvb). destruct (zget_in_range fv (ov + 1) ltac:(lia)) as (ve & Hve). destruct (zget_in_range fu ov ltac:(lia)) as (ub & Hub). destruct (zget_in_range fu (ov + 1) ltac:(lia)) as (ue & Hue). destruct (zget_in_range h (ov + 1) ltac:(lia)) as (e & He).
    pose proof (Gh ov _ _ _ _ _ _ Hub Hue Hvb Hve Hi He) as Ee. pose proof (proj2 Fv ov vb ve Hvb Hve) as M.
    assert (zlen (zfromto vb ve) = ve - vb) as Lz. { clear - M. unfold zfromto. rewrite zlen_map, zlen_zrange; lia. }
    assert (e <= n) as Hen. { unfold last_of in En. exact (fan_mono h (ov + 1) (zlen h - 1) e n Fh He En ltac:(lia)). }
    assert (zlen pre = item) as Lp by (destruct Fw as (E & _); cbn in E; congruence).
    assert (forall sv, In sv (zfromto vb ve) <-> in_group fv ov sv) as Ig. { intros sv. rewrite in_zfromto. split; [intros H; exists vb, ve; auto|]. intros (lo & hi & H1 & H2 & H3). assert (lo = vb) by congruence. assert (hi = ve) by congruence. lia. }
    destruct (fill_verts n ov ub ue (zfromto vb ve) pre (w, item) Hub Hue) as (ys & [w' item'] & Ef & Fs & Ly & Gy); [|exact Fw|rewrite Lz; nia|].
    { intros sv H. apply Ig in H. apply (in_group_range fv _ ov sv Fv Lv H). }
    rewrite Hvb, Hve. cbn [bind]. rewrite Ef. cbn [bind]. rewrite He. cbn [bind].
    assert (item' = e) as ->. { destruct Fs as (E & _). cbn in E. rewrite E, zlen_app, Ly, Lz, Lp. lia. }
    rewrite Z.eqb_refl. cbn [check bind]. exists w'. split; [reflexivity|]. exists (pre ++ ys), e. split; [reflexivity|]. split; [exact Fs|]. intros x. rewrite in_app_iff, Gw, Gy. split.
    + intros [(q & su & sv & Hq & H)|(sv & su & H1 & H2 & H3)]; [exists q, su, sv; split; [lia|exact H]|]. exists ov, su, sv. split; [lia|]. split; [exact H2|]. split; [apply Ig; exact H1|exact H3].
    + intros (q & su & sv & Hq & H1 & H2 & H3). destruct (Z.eq_dec q ov) as [->|Ne]; [right; exists sv, su; split; [apply Ig; exact H2|]; auto|]. left. exists q, su, sv. split; [lia|auto].
  - rewrite Ew. cbn [bind]. exists pre. assert (zlen pre = n) as Lp. { unfold last_of in En. replace (zlen h - 1) with (zlen fv - 1) in En by lia. destruct Fw as (E & _). cbn in E. congruence. }
    split; [apply (fill_done n pre w item Fw Lp)|]. intros x. rewrite Gw. split.
    + intros (q & su & sv & _ & H). eauto.
    + intros (q & su & sv & H1 & H2). exists q, su, sv. split; [|auto]. pose proof (proj2 (in_group_range fu _ q su Fu Lu H1)). lia.
Qed.
End kernel.
