(** The LR(0) machine. *)
From Verif Require Import Prelude M_Automaton M_Grammar M_Parser S_Grammar P_Automaton P_Automaton2 P_Automaton5 P_Owners2 P_Parser P_Parser2 P_Parser3.
Local Open Scope Z_scope.

Definition no_automaton : automaton := FA [] 0 [] true.

Lemma find_set_zrange L ss :
  match find_set (combine L (zrange (zlen L))) ss with Some v => zget L v = Ok ss | None => ~ In ss L end.
Proof.
  pose proof (find_set_spec no_automaton L 0 ss) as X. replace (map (fun j => 0 + j) (zrange (zlen L))) with (zrange (zlen L)) in X.
  - destruct (find_set _ ss); [|exact X]. destruct X as [_ X]. replace (z - 0) with z in X by lia. exact X.
  - rewrite <- (map_id (zrange _)) at 1. apply map_ext. intros; lia.
Qed.

Section Lr0.
Variable g : grammar.
Hypothesis A : augmented g.
Let cs := configs_from 0 (productions g).
Let n := zlen cs.
Variable lhs2sc : list (list Z).
Hypothesis St : starts_ok g n lhs2sc.
Let acc := zlen (productions g) - 1.
(** the configuration of the accept production with the dot at the beginning *)
Variable c0 : Z.
Variable q0 : production.
Hypothesis C0 : is_config g c0 acc 0 q0.

(** what the configurations s of state j satisfy *)
Record state_good (j : Z) (s : list Z) : Prop := {
  sg_ordered : ordered s;
  sg_within : within n s;
  sg_closed : closed g s;
  sg_begin : forall c i q, In c s -> is_config g c i 0 q -> (j = 0 /\ c = c0) \/
      exists c', In c' s /\ dotted g c' (lhs q) /\ nterminals g <= lhs q;
  sg_first : j = 0 -> In c0 s /\ forall c i d q, In c s -> is_config g c i d q -> d = 0 }.

(** s' is where y leads from s *)
Definition goes (s : list Z) (y : Z) (s' : list Z) : Prop :=
  (forall c, In c s -> dotted g c y -> In (c + 1) s') /\
  (forall c i d q, In c s' -> is_config g c i d q -> 0 < d -> In (c - 1) s /\ dotted g (c - 1) y).

Definition move_done (L : list (list Z)) (s : list Z) (y : Z) (a : action * list Z) : Prop :=
  exists j s', a = (Shift j, [y]) /\ j <> 0 /\ zget L j = Ok s' /\ goes s y s'.

Lemma move_done_app L x s y a : move_done L s y a -> move_done (L ++ x) s y a.
Proof.
  intros (j & s' & E & N & G & H). exists j, s'. split; [exact E|]. split; [exact N|]. split; [|exact H].
  rewrite zget_app_l by (apply zget_bounds in G; lia). exact G.
Qed.

Definition state_done (L : list (list Z)) (s : state_in_progress) : Prop :=
  exists syms, ordered syms /\ (forall y, In y syms <-> exists c, In c (configs s) /\ dotted g c y) /\
    Forall2 (move_done L (configs s)) syms (actions s).

Lemma state_done_app L x s : state_done L s -> state_done (L ++ x) s.
Proof.
  intros (syms & O & I & F). exists syms. split; [exact O|]. split; [exact I|]. clear O I.
  induction F as [|? ? ? ? Hm ? IH]; [constructor|]. constructor; [apply move_done_app; exact Hm | exact IH].
Qed.

Definition sets (states : list state_in_progress) : list (list Z) := map configs states.

(** the states, of which the first f are done *)
Record building (states : list state_in_progress) (f : Z) : Prop := {
  bd_nodup : NoDup (sets states);
  bd_good : forall j s, zget (sets states) j = Ok s -> state_good j s;
  bd_front : 0 <= f <= zlen states;
  bd_some : 0 < zlen states;
  bd_done : forall j s, zget states j = Ok s -> j < f -> state_done (sets states) s }.

(** src/Omega_h_build_parser.cpp:160-171: the successors of the configurations before y *)
Lemma successors_ok s y : within n s -> ordered s ->
  exists ks, foldM (fun next config_i =>
    a <- after_dot cs g config_i ;;
    match a with None => Ok next | Some x => Ok (if x =? y then next ++ [config_i + 1] else next) end) s [] = Ok ks /\
  NoDup ks /\ within n ks /\ forall k, In k ks <-> In (k - 1) s /\ dotted g (k - 1) y.
Proof.
  intros W O.
  set (P := fun c => match after_dot cs g c with Ok (Some x) => x =? y | _ => false end).
  assert (forall c, 0 <= c < n -> (P c = true <-> dotted g c y)) as HP.
  { intros c R. unfold P. pose proof (after_dot_ok g c R) as AD. fold cs in AD. destruct AD as [(x & -> & D)|(-> & i & q & I)].
    - destruct (Z.eqb_spec x y) as [->|N]; split; [intros; exact D | reflexivity | discriminate|]. intros D'. exfalso. apply N. eapply dotted_fun; eassumption.
    - split; [discriminate|]. intros D. exfalso. exact (proj2 (after_dot_none g _ _ _ I) _ D). }
  assert (forall acc0, foldM (fun next config_i =>
    a <- after_dot cs g config_i ;;
    match a with None => Ok next | Some x => Ok (if x =? y then next ++ [config_i + 1] else next) end) s acc0 = Ok (acc0 ++ map (fun c => c + 1) (filter P s))) as X.
  { clear O. induction s as [|c s IH]; intros acc0; [cbn; rewrite app_nil_r; reflexivity|].
    cbn [foldM filter]. unfold P at 1. pose proof (after_dot_ok g c (W c (or_introl eq_refl))) as AD. fold cs in AD.
    assert (within n s) as W' by (intros z Hz; apply W; right; exact Hz).
    destruct AD as [(x & -> & D)|(-> & i & q & I)]; cbn [bind]; [|apply IH; exact W'].
    destruct (x =? y); rewrite IH by exact W'; cbn [map]; rewrite <- ?app_assoc; reflexivity. }
  exists (map (fun c => c + 1) (filter P s)). split; [apply X|]. split; [|split].
  - apply FinFun.Injective_map_NoDup; [intros a b; lia|]. apply NoDup_filter. apply ordered_NoDup. exact O.
  - intros k Hk. apply in_map_iff in Hk as (c & <- & Hc). apply filter_In in Hc as [Hc Hp]. apply HP in Hp; [|auto].
    destruct Hp as (i & d & q & I & G). apply zget_bounds in G. apply (config_next g) in I; [|lia]. apply config_dot in I. apply I.
  - intros k. rewrite in_map_iff. split.
    + intros (c & <- & Hc). apply filter_In in Hc as [Hc Hp]. replace (c + 1 - 1) with c by lia. split; [exact Hc | apply HP; auto].
    + intros [Hc D]. exists (k - 1). split; [lia|]. apply filter_In. split; [exact Hc | apply HP; auto].
Qed.

Lemma transition_ok states f s y acts c1 : building states f -> state_good f s -> In c1 s -> dotted g c1 y ->
  exists add a, lr0_transition cs g lhs2sc s (states, combine (sets states) (zrange (zlen states)), acts) y =
      Ok (states ++ add, combine (sets (states ++ add)) (zrange (zlen (states ++ add))), acts ++ [a]) /\
    building (states ++ add) f /\ move_done (sets (states ++ add)) s y a.
Proof.
  intros [B1 B2 B3 B4 B5] [G1 G2 G3 G4 G5] Hc1 D1. unfold lr0_transition.
  destruct (successors_ok s y G2 G1) as (ks & -> & Nk & Wk & Ik). cbn [bind].
  pose proof (close_ok g A lhs2sc St ks Nk Wk) as CO. fold cs n in CO. destruct CO as (out & -> & O & W & Cl & Gr & Inc). cbn [bind].
  assert (In (c1 + 1) ks) as Hk1 by (apply Ik; replace (c1 + 1 - 1) with c1 by lia; auto).
  assert (forall k i d q, In k ks -> is_config g k i d q -> 0 < d) as Pos.
  { intros k i d q Hk I. apply Ik in Hk as [_ (i' & d' & q' & I' & Gx)]. apply zget_bounds in Gx.
    pose proof (config_next g _ _ _ _ I' ltac:(lia)) as I2. replace (k - 1 + 1) with k in I2 by lia.
    destruct (config_fun g _ _ _ _ _ _ _ I I2) as (_ & -> & _). apply config_dot in I'. lia. }
  assert (goes s y out) as Go.
  { split.
    - intros c Hc D. apply Inc. apply Ik. replace (c + 1 - 1) with c by lia. auto.
    - intros c i d q Hc I Hd. apply Ik. destruct (Gr c Hc) as [|(i' & q' & c' & I' & _)]; [assumption|].
      destruct (config_fun g _ _ _ _ _ _ _ I I') as (_ & -> & _). lia. }
  assert (forall j, j <> 0 -> state_good j out) as Good.
  { intros j Nj. constructor; auto.
    - intros c i q Hc I. right. destruct (Gr c Hc) as [Hk|(i' & q' & c' & I' & Hc' & D' & N')].
      + specialize (Pos _ _ _ _ Hk I). lia.
      + destruct (config_fun g _ _ _ _ _ _ _ I I') as (_ & _ & <-). eauto.
    - intros; lia. }
  pose proof (find_set_zrange (sets states) out) as FS. replace (zlen (sets states)) with (zlen states) in FS by (symmetry; apply zlen_map).
  destruct (find_set _ out) as [v|].
  - exists [], (Shift v, [y]). rewrite app_nil_r. split; [reflexivity|]. split; [constructor; assumption|].
    exists v, out. split; [reflexivity|]. split; [|auto]. intros ->. destruct (sg_first _ _ (B2 0 out FS) eq_refl) as [_ X].
    pose proof (Inc _ Hk1) as Hk2. destruct (config_ex g (c1 + 1) (Wk _ Hk1)) as (i & d & q & I & _).
    specialize (X _ _ _ _ Hk2 I). specialize (Pos _ _ _ _ Hk1 I). lia.
  - exists [mk_sip out []], (Shift (zlen states), [y]).
    assert (sets (states ++ [mk_sip out []]) = sets states ++ [out]) as Es by (unfold sets; rewrite map_app; reflexivity).
    assert (zlen (sets states) = zlen states) as Ls by apply zlen_map.
    split; [|split].
    + rewrite Es. replace (zlen (states ++ [mk_sip out []])) with (zlen (sets states ++ [out])) by (rewrite !zlen_snoc; lia).
      rewrite (combine_snoc no_automaton), Ls. reflexivity.
    + constructor.
      * rewrite Es. apply NoDup_app_intro; [exact B1 | repeat constructor; intros [] |]. intros x Hx [<-|[]]. exact (FS Hx).
      * rewrite Es. intros j s' G. destruct (Z_lt_le_dec j (zlen (sets states))) as [Hj|Hj].
        -- rewrite zget_app_l in G by (apply zget_bounds in G; lia). apply B2. exact G.
        -- assert (j = zlen (sets states)) as -> by (apply zget_bounds in G; rewrite zlen_snoc in G; lia).
           rewrite zget_app_last in G. injection G as <-. apply Good. lia.
      * rewrite zlen_snoc. lia.
      * rewrite zlen_snoc. lia.
      * rewrite Es. intros j s' G Hj. apply state_done_app. apply (B5 j); [|exact Hj].
        rewrite zget_app_l in G by (apply zget_bounds in G; lia). exact G.
    + exists (zlen states), out. split; [reflexivity|]. split; [lia|]. split; [|exact Go]. rewrite Es, <- Ls. apply zget_app_last.
Qed.

Lemma transitions_ok f s : forall syms states acts, building states f -> state_good f s ->
  (forall y, In y syms -> exists c, In c s /\ dotted g c y) ->
  exists add more, foldM (lr0_transition cs g lhs2sc s) syms (states, combine (sets states) (zrange (zlen states)), acts) =
      Ok (states ++ add, combine (sets (states ++ add)) (zrange (zlen (states ++ add))), acts ++ more) /\
    building (states ++ add) f /\ Forall2 (move_done (sets (states ++ add)) s) syms more.
Proof.
  induction syms as [|y syms IH]; intros states acts B G H.
  - exists [], []. rewrite !app_nil_r. split; [reflexivity|]. split; [exact B | constructor].
  - destruct (H y (or_introl eq_refl)) as (c & Hc & D). cbn [foldM].
    destruct (transition_ok states f s y acts c B G Hc D) as (add & a & -> & B' & M). cbn [bind].
    destruct (IH (states ++ add) (acts ++ [a]) B' G) as (add' & more & -> & B2 & M2); [intros z Hz; apply H; right; exact Hz|].
    exists (add ++ add'), (a :: more). rewrite !app_assoc. rewrite <- (app_assoc acts). split; [reflexivity|]. split; [exact B2|].
    constructor; [|exact M2]. unfold sets. rewrite map_app. apply move_done_app. exact M.
Qed.

Lemma symbols_ok s : within n s -> exists syms, foldM (fun ss config_i =>
    a <- after_dot cs g config_i ;; Ok (match a with Some x => set_insert x ss | None => ss end)) s [] = Ok syms /\
  ordered syms /\ forall y, In y syms <-> exists c, In c s /\ dotted g c y.
Proof.
  assert (forall s acc0, within n s -> ordered acc0 -> exists syms, foldM (fun ss config_i =>
    a <- after_dot cs g config_i ;; Ok (match a with Some x => set_insert x ss | None => ss end)) s acc0 = Ok syms /\
    ordered syms /\ forall y, In y syms <-> In y acc0 \/ exists c, In c s /\ dotted g c y) as X.
  { clear s. induction s as [|c s IH]; intros acc0 W O.
    - exists acc0. split; [reflexivity|]. split; [exact O|]. intros y. split; [auto|]. intros [H|(c & [] & _)]. exact H.
    - cbn [foldM]. pose proof (after_dot_ok g c (W c (or_introl eq_refl))) as AD. fold cs in AD.
      assert (within n s) as W' by (intros z Hz; apply W; right; exact Hz).
      destruct AD as [(x & -> & D)|(-> & i & q & I)]; cbn [bind].
      + destruct (IH (set_insert x acc0) W') as (syms & E & O' & H'); [apply set_insert_ordered; exact O|].
        exists syms. split; [exact E|]. split; [exact O'|]. intros y. rewrite H', set_insert_In. split.
        * intros [[->|H]|(c' & Hc & Dc)]; [right; exists c; split; [left; reflexivity | exact D]|auto|right; exists c'; split; [right; exact Hc | exact Dc]].
        * intros [H|(c' & [<-|Hc] & Dc)]; [auto|left; left; eapply dotted_fun; eassumption|right; eauto].
      + destruct (IH acc0 W' O) as (syms & E & O' & H'). exists syms. split; [exact E|]. split; [exact O'|]. intros y. rewrite H'. split.
        * intros [H|(c' & Hc & Dc)]; [auto|right; exists c'; split; [right; exact Hc | exact Dc]].
        * intros [H|(c' & [<-|Hc] & Dc)]; [auto| |right; eauto]. exfalso. exact (proj2 (after_dot_none g _ _ _ I) _ Dc). }
  intros W. destruct (X s [] W) as (syms & E & O & H); [constructor|]. exists syms. split; [exact E|]. split; [exact O|].
  intros y. rewrite H. split; [intros [[]|Y]; exact Y | auto].
Qed.

Lemma iteration_ok states f : building states f -> f < zlen states ->
  exists states', lr0_iteration cs g lhs2sc (states, combine (sets states) (zrange (zlen states)), f) =
      Ok (inl (states', combine (sets states') (zrange (zlen states')), f + 1)) /\
    building states' (f + 1).
Proof.
  intros B Lt. unfold lr0_iteration. destruct (Z.ltb_spec f (zlen states)); [|lia].
  pose proof (bd_front _ _ B) as Fr. destruct (zget_in_range states f ltac:(lia)) as (s & Gs).
  rewrite (proj2 (vget_ok _ _ _) Gs). cbn [bind].
  assert (zget (sets states) f = Ok (configs s)) as Gc by (unfold sets; rewrite zget_map, Gs; reflexivity).
  pose proof (bd_good _ _ B _ _ Gc) as Good.
  destruct (symbols_ok (configs s) (sg_within _ _ Good)) as (syms & -> & Os & Hs). cbn [bind].
  destruct (transitions_ok f (configs s) syms states [] B Good) as (add & more & -> & B' & M); [intros y Hy; apply Hs; exact Hy|].
  cbn [bind app]. pose proof (bd_front _ _ B') as Fr'. set (st := states ++ add) in *.
  assert (f < zlen st) as Ltf by (unfold st; rewrite zlen_app; pose proof (zlen_nonneg add); lia).
  destruct (zset_in_range st f (mk_sip (configs s) more) ltac:(lia)) as (st' & E).
  unfold vset. destruct (Z.leb_spec 0 f); [|lia]. destruct (Z.ltb_spec f (zlen st)); [|lia]. cbn [andb check bind]. rewrite E. cbn [bind].
  assert (sets st' = sets st) as Es.
  { unfold sets. apply list_eq_zget; [rewrite !zlen_map; eapply zset_zlen; exact E|].
    intros j _. rewrite !zget_map. destruct (Z.eq_dec f j) as [<-|Nj].
    - rewrite (zset_get_eq _ _ _ _ E). unfold st. rewrite zget_app_l by lia. rewrite Gs. reflexivity.
    - rewrite (zset_get_ne _ _ j _ _ E Nj). reflexivity. }
  assert (zlen st' = zlen st) as Ls by (eapply zset_zlen; exact E).
  exists st'. rewrite Es, Ls. split; [reflexivity|]. destruct B' as [B1 B2 B3 B4 B5]. constructor; rewrite ?Es, ?Ls; auto; [lia|].
  intros j s' G Hj. destruct (Z.eq_dec j f) as [->|Nj].
  - rewrite (zset_get_eq _ _ _ _ E) in G. injection G as <-. exists syms. cbn [configs actions]. auto.
  - rewrite (zset_get_ne _ _ j _ _ E) in G by lia. apply (B5 j); [exact G | lia].
Qed.

(** src/Omega_h_build_parser.cpp:104-184, before the reductions *)
Lemma states_ok s0 : close [c0] cs g lhs2sc = Ok s0 ->
  exists states, finish (iterate (S (length cs)) (lr0_iteration cs g lhs2sc) ([mk_sip s0 []], [(s0, 0)], 0)) = Ok states /\
    building states (zlen states).
Proof.
  intros E0. pose proof (config_dot _ _ _ _ _ C0) as [_ Rc]. fold cs n in Rc.
  pose proof (close_ok g A lhs2sc St [c0]) as CO. fold cs n in CO.
  destruct CO as (out & E & O & W & Cl & Gr & Inc); [repeat constructor; intros [] | intros x [<-|[]]; exact Rc|].
  rewrite E in E0. injection E0 as ->.
  assert (state_good 0 s0) as G0.
  { constructor; auto.
    - intros c i q Hc I. destruct (Gr c Hc) as [[->|[]]|(i' & q' & c' & I' & Hc' & D' & N')]; [auto|].
      right. destruct (config_fun g _ _ _ _ _ _ _ I I') as (_ & _ & <-). eauto.
    - intros _. split; [apply Inc; left; reflexivity|]. intros c i d q Hc I. destruct (Gr c Hc) as [[<-|[]]|(i' & q' & c' & I' & _)].
      + destruct (config_fun g _ _ _ _ _ _ _ I C0) as (_ & -> & _). reflexivity.
      + destruct (config_fun g _ _ _ _ _ _ _ I I') as (_ & -> & _). reflexivity. }
  set (Inv := fun st : list state_in_progress * list (list Z * Z) * Z => exists states f,
      st = (states, combine (sets states) (zrange (zlen states)), f) /\ building states f).
  set (Post := fun states => building states (zlen states)).
  set (mu := fun st : list state_in_progress * list (list Z * Z) * Z => (2 ^ Z.to_nat n - Z.to_nat (snd st))%nat).
  destruct (iterate_ok no_automaton (lr0_iteration cs g lhs2sc) Inv Post mu) with (d := S (length cs)) (s := ([mk_sip s0 []], [(s0, 0)], 0)) as [(d & Ed & Pd)|(s' & Ed & I' & M)].
  - intros st (states & f & -> & B). destruct (Z_lt_dec f (zlen states)) as [Lt|Ge].
    + right. destruct (iteration_ok states f B Lt) as (states' & -> & B'). eexists. split; [reflexivity|]. split; [exists states', (f + 1); auto|].
      unfold mu. cbn [snd]. pose proof (bd_front _ _ B') as F'. pose proof (bd_front _ _ B) as Fr.
      assert (length (sets states') <= 2 ^ Z.to_nat n)%nat as Len.
      { apply count_sets; [exact (bd_nodup _ _ B')|]. intros s Hs. apply In_nth_error in Hs as (j & Hj).
        assert (zget (sets states') (Z.of_nat j) = Ok s) as G by (apply zget_nat; exact Hj).
        apply (bd_good _ _ B') in G. destruct G; auto. }
      unfold sets in Len. rewrite map_length in Len. unfold zlen in F'. lia.
    + left. exists states. unfold lr0_iteration. destruct (Z.ltb_spec f (zlen states)); [lia|]. split; [reflexivity|]. unfold Post.
      pose proof (bd_front _ _ B). replace (zlen states) with f by lia. exact B.
  - exists [mk_sip s0 []], 0. split; [reflexivity|]. change (zlen [mk_sip s0 []]) with 1. constructor; change (zlen [mk_sip s0 []]) with 1; try lia.
    + cbn. repeat constructor. intros [].
    + intros j s G. assert (j = 0) as -> by (apply zget_bounds in G; change (zlen (sets [mk_sip s0 []])) with 1 in G; lia). injection G as <-. exact G0.
    + intros j s G. apply zget_bounds in G. lia.
  - exists d. rewrite Ed. split; [reflexivity | exact Pd].
  - exfalso. unfold mu in M. cbn [snd] in M. replace (length cs) with (Z.to_nat n) in M by (unfold n, zlen; lia).
    cbn [Nat.pow] in M. assert (2 ^ Z.to_nat n <> 0)%nat by (apply Nat.pow_nonzero; lia). lia.
Qed.
End Lr0.
