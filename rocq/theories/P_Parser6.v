(** A parser that has been built is an LR machine for its grammar. *)
From Verif Require Import Prelude M_Automaton M_Grammar M_Parser S_Grammar P_Automaton P_Automaton2 P_Automaton5 P_Parser P_Parser2 P_Parser3 P_Parser4 P_Parser5 P_Dist3.
Local Open Scope Z_scope.

Lemma Forall2_In_l {A B} (R : A -> B -> Prop) l m a : Forall2 R l m -> In a l -> exists b, In b m /\ R a b.
Proof. induction 1; [intros []|]; intros [<-|I]; [eexists; split; [left; reflexivity | assumption]|]. destruct IHForall2 as (b & Ib & Rb); [exact I|]. exists b. split; [right; exact Ib | exact Rb]. Qed.
Lemma Forall2_In_r {A B} (R : A -> B -> Prop) l m b : Forall2 R l m -> In b m -> exists a, In a l /\ R a b.
Proof. induction 1; [intros []|]; intros [<-|I]; [eexists; split; [left; reflexivity | assumption]|]. destruct IHForall2 as (a & Ia & Ra); [exact I|]. exists a. split; [right; exact Ia | exact Ra]. Qed.
Lemma Forall2_get {A B} (R : A -> B -> Prop) l m i b : Forall2 R l m -> zget m i = Ok b -> exists a, zget l i = Ok a /\ R a b.
Proof.
  intros F G. apply zget_ok in G as [B0 G]. revert i B0 G. induction F as [|a b' l m Hr F IH]; intros i B0 G.
  - destruct (Z.to_nat i); discriminate.
  - destruct (Z.to_nat i) as [|k] eqn:Ek.
    + injection G as <-. exists a. split; [|exact Hr]. apply zget_ok. split; [exact B0|]. rewrite Ek. reflexivity.
    + destruct (IH (i - 1)) as (a' & G' & R'); [lia | replace (Z.to_nat (i - 1)) with k by lia; exact G|].
      exists a'. split; [|exact R']. apply zget_ok in G' as [_ G']. apply zget_ok. split; [exact B0|]. rewrite Ek. replace (Z.to_nat (i - 1)) with k in G' by lia. exact G'.
Qed.
Lemma mapM_Forall2 {A B} (f : A -> res B) (R : A -> B -> Prop) l m : mapM f l = Ok m -> (forall a b, In a l -> f a = Ok b -> R a b) -> Forall2 R l m.
Proof.
  revert m. induction l as [|a l IH]; intros m E H; cbn [mapM] in E.
  - injection E as <-. constructor.
  - apply bind_ok in E as (b & Eb & E). apply bind_ok in E as (m' & Em & E). injection E as <-. constructor; [apply H; [left; reflexivity | exact Eb]|].
    apply IH; [exact Em|]. intros a' b' I'. apply H. right. exact I'.
Qed.

Section Built.
Variable g : grammar.
Hypothesis A : augmented g.
Let cs := configs_from 0 (productions g).
Let n := zlen cs.
Let acc := zlen (productions g) - 1.

Definition full (i : Z) : list Z := if i =? get_accept_production g then [get_end_terminal g] else zrange (nterminals g).

Lemma reductions_ok s : within n (configs s) -> exists reds, add_reductions cs g s = Ok (mk_sip (configs s) (actions s ++ reds)) /\
  forall a, In a reds <-> exists c i q, In c (configs s) /\ is_config g c i (zlen (rhs q)) q /\ a = (Reduce i, full i).
Proof.
  intros W. unfold add_reductions.
  assert (forall l acts, within n l -> exists reds, foldM (fun acts config_i =>
    c <- vget cs config_i ;;
    prod <- vget (productions g) (fst c) ;;
    if negb (snd c =? zlen (rhs prod)) then Ok acts
    else Ok (acts ++ [(Reduce (fst c),
                       if fst c =? get_accept_production g then [get_end_terminal g] else zrange (nterminals g))])) l acts = Ok (acts ++ reds) /\
    forall a, In a reds <-> exists c i q, In c l /\ is_config g c i (zlen (rhs q)) q /\ a = (Reduce i, full i)) as X.
  { clear s W. induction l as [|c l IH]; intros acts W.
    - exists []. cbn [foldM]. rewrite app_nil_r. split; [reflexivity|]. intros a. split; [intros [] | intros (c & i & q & [] & _)].
    - cbn [foldM]. destruct (config_ex g c (W c (or_introl eq_refl))) as (i & d & q & I & Rd). pose proof I as [G Gq]. fold cs in G.
      replace (vget cs c) with (Ok (i, d)) by (symmetry; apply vget_ok; exact G). cbn [bind fst snd].
      replace (vget (productions g) i) with (Ok q) by (symmetry; apply vget_ok; exact Gq). cbn [bind].
      assert (within n l) as W' by (intros z Hz; apply W; right; exact Hz).
      destruct (Z.eqb_spec d (zlen (rhs q))) as [->|N]; cbn [negb bind].
      + fold (full i). destruct (IH (acts ++ [(Reduce i, full i)]) W') as (reds & E & H). exists ((Reduce i, full i) :: reds). rewrite E. rewrite <- app_assoc. split; [reflexivity|].
        intros a. split.
        * intros [<-|Ha]; [exists c, i, q; split; [left; reflexivity | auto]|]. apply H in Ha as (c' & i' & q' & H1 & H2). exists c', i', q'. split; [right; exact H1 | exact H2].
        * intros (c' & i' & q' & [<-|H1] & H2 & ->).
          -- destruct (config_fun g _ _ _ _ _ _ _ I H2) as (<- & _ & _). left. reflexivity.
          -- right. apply H. exists c', i', q'. auto.
      + destruct (IH acts W') as (reds & E & H). exists reds. split; [exact E|]. intros a. rewrite H. split.
        * intros (c' & i' & q' & H1 & H2). exists c', i', q'. split; [right; exact H1 | exact H2].
        * intros (c' & i' & q' & [<-|H1] & H2 & Ha); [|exists c', i', q'; auto]. exfalso.
          destruct (config_fun g _ _ _ _ _ _ _ I H2) as (_ & -> & ->). congruence. }
  destruct (X (configs s) (actions s) W) as (reds & E & H). exists reds. rewrite E. split; [reflexivity | exact H].
Qed.

(** A state of the machine that is handed over to accept_parser; ok says which contexts a reduction may have *)
Definition final_state (L : list (list Z)) (s : state_in_progress) (reds : list (action * list Z)) : Prop :=
  exists syms shifts, actions s = shifts ++ reds /\ ordered syms /\ (forall y, In y syms <-> exists c, In c (configs s) /\ dotted g c y) /\
    Forall2 (move_done g L (configs s)) syms shifts.
Definition lr0_state (L : list (list Z)) (s : state_in_progress) : Prop :=
  exists reds, final_state L s reds /\
    forall a, In a reds <-> exists c i q, In c (configs s) /\ is_config g c i (zlen (rhs q)) q /\ a = (Reduce i, full i).
Definition lalr_state (L : list (list Z)) (s : state_in_progress) : Prop :=
  exists reds, final_state L s reds /\
    forall a, In a reds -> exists c i q ctx, In c (configs s) /\ is_config g c i (zlen (rhs q)) q /\ a = (Reduce i, ctx) /\ (i = acc -> ctx = [nterminals g - 1]).

Lemma lr0_lalr L s : lr0_state L s -> lalr_state L s.
Proof.
  intros (reds & F & H). exists reds. split; [exact F|]. intros a Ha. apply H in Ha as (c & i & q & H1 & H2 & ->). exists c, i, q, (full i).
  split; [exact H1|]. split; [exact H2|]. split; [reflexivity|]. intros ->. unfold full, get_accept_production, acc. rewrite Z.eqb_refl. reflexivity.
Qed.

Record machine (c0 : Z) (q0 : production) (states : list state_in_progress) : Prop := {
  mc_start : is_config g c0 acc 0 q0;
  mc_some : 0 < zlen states;
  mc_good : forall j s, zget (sets states) j = Ok s -> state_good g c0 j s }.

Lemma start_config lhs2sc : starts_ok g n lhs2sc -> exists c0 rest q0, vget lhs2sc (get_accept_nonterminal g) = Ok (c0 :: rest) /\ is_config g c0 acc 0 q0.
Proof.
  intros [Ln Hs]. unfold get_accept_nonterminal. destruct (aug_counts g A) as [C1 C2]. destruct (zget_in_range lhs2sc (nsymbols g - 1) ltac:(lia)) as (e & Ge).
  destruct (aug_accept g A) as (ps & goal & Ep & Gg & Hp).
  assert (zget (productions g) acc = Ok (mk_production (nsymbols g - 1) [goal])) as Ga.
  { unfold acc. rewrite Ep, zlen_snoc. replace (zlen ps + 1 - 1) with (zlen ps) by lia. apply zget_app_last. }
  destruct (config_all g acc _ 0 Ga) as (ca & Ia); [pose proof (zlen_nonneg (rhs (mk_production (nsymbols g - 1) [goal]))); lia|].
  assert (In ca e) as Hca by (apply (Hs _ _ Ge); split; [eapply config_dot; exact Ia | exists acc, (mk_production (nsymbols g - 1) [goal]); auto]).
  destruct e as [|c0 rest]; [destruct Hca|]. destruct (proj1 (Hs _ _ Ge c0) (or_introl eq_refl)) as (_ & i & q & I & Hl).
  exists c0, rest, q. split; [apply vget_ok; exact Ge|]. destruct (Z.eq_dec i acc) as [->|N]; [exact I|]. exfalso. destruct I as [_ Gi].
  unfold acc in N. rewrite Ep in Gi, N. rewrite zlen_snoc in N. pose proof (zget_bounds _ _ _ Gi) as B. rewrite zlen_snoc in B.
  rewrite zget_app_l in Gi by lia. apply zget_In in Gi. apply (Hp q Gi). exact Hl.
Qed.

Lemma lr0_ok lhs2sc : starts_ok g n lhs2sc -> exists c0 q0 states, build_lr0_parser cs g lhs2sc = Ok states /\ machine c0 q0 states /\
  forall s, In s states -> lr0_state (sets states) s.
Proof.
  intros Hs. unfold build_lr0_parser. destruct (start_config lhs2sc Hs) as (c0 & rest & q0 & -> & I0). cbn [bind].
  pose proof (config_dot _ _ _ _ _ I0) as [_ R0].
  pose proof (close_ok g A lhs2sc Hs [c0]) as CO. fold cs n in CO.
  destruct CO as (out & E & _); [repeat constructor; intros [] | intros x [<-|[]]; exact R0|]. rewrite E. cbn [bind].
  destruct (states_ok g A lhs2sc Hs c0 q0 I0 out E) as (st & E1 & [B1 B2 B3 B4 B5]). fold cs in E1. rewrite E1. cbn [bind].
  assert (exists states, mapM (add_reductions cs g) st = Ok states /\ Forall2 (fun s s' => configs s' = configs s /\ exists reds, actions s' = actions s ++ reds /\
     forall a, In a reds <-> exists c i q, In c (configs s) /\ is_config g c i (zlen (rhs q)) q /\ a = (Reduce i, full i)) st states) as (states & -> & F).
  { assert (forall s, In s st -> within n (configs s)) as W.
    { intros s Hs'. apply In_nth_error in Hs' as (k & Hk). apply zget_nat in Hk. apply (sg_within g c0 (Z.of_nat k)). apply B2. unfold sets. rewrite zget_map, Hk. reflexivity. }
    clear - W. induction st as [|s st IH]; [exists []; split; [reflexivity|constructor]|].
    destruct (reductions_ok s (W s (or_introl eq_refl))) as (reds & E & H). destruct IH as (states & E' & F); [intros s' H'; apply W; right; exact H'|].
    eexists. cbn [mapM]. rewrite E. cbn [bind]. rewrite E'. cbn [bind]. split; [reflexivity|]. constructor; [|exact F]. cbn [configs actions]. eauto. }
  assert (sets states = sets st) as Es by (clear - F; unfold sets; induction F as [|s s' ? ? [E _] ? IH]; cbn [map]; [reflexivity | rewrite E, IH; reflexivity]).
  exists c0, q0, states. split; [reflexivity|]. split.
  - constructor; [exact I0| |rewrite Es; exact B2]. apply Forall2_len in F. unfold zlen in *. lia.
  - intros s Hs'. apply In_nth_error in Hs' as (k & Hk). apply zget_nat in Hk. destruct (Forall2_get _ _ _ _ _ F Hk) as (s0 & G0 & Ec & reds & Ea & Hr).
    destruct (B5 _ _ G0) as (syms & O & Hy & Fm); [apply zget_bounds in G0; lia|]. exists reds. rewrite Ec. split; [|exact Hr].
    exists syms, (actions s0). rewrite Ec, Es. auto.
Qed.

(** src/Omega_h_build_parser.cpp:1079-1095 *)
Lemma set_contexts_ok L s ctx s' : lalr_state L s -> Forall2 (context_ok g cs) (configs s) ctx -> set_contexts cs g s ctx = Ok s' ->
  configs s' = configs s /\ lalr_state L s'.
Proof.
  intros HL Fc E. unfold set_contexts in E. apply bind_ok in E as (acts & E & E'). injection E' as <-. cbn [configs]. split; [reflexivity|].
  assert (forall x, In x (combine (configs s) ctx) -> context_ok g cs (fst x) (snd x)) as Hx.
  { clear - Fc. induction Fc; [intros ? []|]; intros x' [<-|I']; auto. }
  set (I := fun (l : list (Z * option (list Z))) acts => (forall x, In x l -> context_ok g cs (fst x) (snd x)) -> lalr_state L (mk_sip (configs s) acts)).
  assert (I ([] ++ combine (configs s) ctx) acts) as HI.
  2:{ apply HI. exact Hx. }
  eapply (foldM_partial _ I); [| |exact E].
  - clear. intros don [c k] acts acts' H E Hx. destruct k as [k|]; [|injection E as <-; apply H; intros x Hi; apply Hx; apply in_or_app; left; exact Hi].
    apply bind_ok in E as (cf & Gc & E). apply bind_ok in E as (q & Gq & E). apply vget_ok in Gc, Gq.
    assert (lalr_state L (mk_sip (configs s) acts)) as HL by (apply H; intros x Hi; apply Hx; apply in_or_app; left; exact Hi).
    destruct (negb _); injection E as <-; [exact HL|].
    destruct HL as (reds & (syms & shifts & Ea & O & Hy & Fm) & Hr). cbn [configs actions] in *.
    set (f := fun a : action * list Z => match a with
                               | (Reduce p, old) => if p =? fst cf then (Reduce p, k) else (Reduce p, old)
                               | _ => a
                               end).
    exists (map f reds). split.
    + exists syms, shifts. cbn [configs actions]. split; [|auto]. rewrite Ea, map_app. f_equal. clear - Fm. induction Fm as [|y a ? ? (j & s' & -> & _) ? IH]; [reflexivity|].
      cbn [map]. f_equal. exact IH.
    + intros a Ha. apply in_map_iff in Ha as (b & <- & Hb). apply Hr in Hb as (c' & i & q' & old & H1 & H2 & -> & H4). cbn [configs]. unfold f.
      destruct (Z.eqb_spec i (fst cf)) as [->|N].
      * exists c', (fst cf), q', k. split; [exact H1|]. split; [exact H2|]. split; [reflexivity|]. intros Eacc.
        specialize (Hx (c, Some k) ltac:(apply in_or_app; right; left; reflexivity)). apply (Hx k (snd cf) eq_refl). cbn [fst]. rewrite Gc. destruct cf as [cf1 cf2]. cbn [fst snd] in *. subst cf1. reflexivity.
      * exists c', i, q', old. auto.
  - intros _. destruct s as [sc sa]. exact HL.
Qed.

(** What accept_parser is given *)
Lemma lalr1_ok trace states : sane_trace trace g -> build_lalr1_parser trace g = Ok states ->
  exists c0 q0, machine c0 q0 states /\ forall s, In s states -> lalr_state (sets states) s.
Proof.
  intros Sn E. unfold build_lalr1_parser in E. rewrite make_configs_eq in E. cbn [bind] in E. fold cs in E.
  destruct (start_configs_ok g A) as (l & El & Hl). fold cs in El. rewrite El in E. cbn [bind] in E.
  destruct (lr0_ok l Hl) as (c0 & q0 & st & Est & M & HL). rewrite Est in E. cbn [bind] in E.
  apply bind_ok in E as (adq & Ea & E). exists c0, q0. destruct (forallb _ adq).
  - injection E as <-. split; [exact M|]. intros s Hs. apply lr0_lalr. apply HL. exact Hs.
  - apply bind_ok in E as (ctxs & Ec & E). apply bind_ok in E as (st' & E2 & E). apply bind_ok in E as (adq' & _ & E). apply bind_ok in E as (u & _ & E). injection E as <-.
    pose proof (Sn _ _ _ _ Ec) as Fc.
    assert (Forall2 (fun s s' => configs s' = configs s /\ lalr_state (sets st) s') st st') as F.
    { assert (forall s, In s st -> lalr_state (sets st) s) as HL' by (intros s Hs; apply lr0_lalr; apply HL; exact Hs).
      generalize (sets st) HL' Fc E2. clear. intros L HL Fc. revert st'. induction Fc as [|s k st ctxs H F IH]; intros st' E.
      - injection E as <-. constructor.
      - cbn [combine mapM] in E. apply bind_ok in E as (s' & E1 & E). apply bind_ok in E as (st2 & E2 & E). injection E as <-.
        constructor; [|apply IH; [intros s0 H0'; apply HL; right; exact H0' | exact E2]]. apply (set_contexts_ok L s k s'); [apply HL; left; reflexivity | exact H | exact E1]. }
    assert (sets st' = sets st) as Es by (clear - F; unfold sets; induction F as [|s s' ? ? [E _] ? IH]; cbn [map]; [reflexivity | rewrite E, IH; reflexivity]).
    split.
    + destruct M as [M1 M2 M3]. constructor; [exact M1| |rewrite Es; exact M3]. apply Forall2_len in F. unfold zlen in *. lia.
    + rewrite Es. intros s Hs. destruct (Forall2_In_r _ _ _ _ F Hs) as (s0 & _ & _ & H). exact H.
Qed.
End Built.
