(** A parser that has been built is an LR machine for its grammar; LR(0) parsers reduce on every lookahead. *)
From Verif Require Import Prelude M_Automaton M_Grammar M_Parser S_Grammar P_Automaton P_Automaton2 P_Automaton5 P_Parser P_Parser2 P_Parser3 P_Parser4 P_Parser5 P_Parser6.
Local Open Scope Z_scope.

Section Lr.
Variable g : grammar.
Hypothesis A : augmented g.
Let cs := configs_from 0 (productions g).
Let n := zlen cs.
Let acc := zlen (productions g) - 1.
Variable c0 : Z.
Variable q0 : production.
Variable states : list state_in_progress.
Hypothesis M : machine g c0 q0 states.
Hypothesis HL : forall s, In s states -> lalr_state g (sets states) s.
Variable p : parser.
Hypothesis T : tabulated g states p.

Definition item (s i d : Z) : Prop := exists sip c q, zget states s = Ok sip /\ In c (configs sip) /\ is_config g c i d q.

Lemma shift_action s sip j ctx : zget states s = Ok sip -> In (Shift j, ctx) (actions sip) ->
  exists y s', ctx = [y] /\ j <> 0 /\ zget (sets states) j = Ok s' /\ goes g (configs sip) y s' /\ exists c, In c (configs sip) /\ dotted g c y.
Proof.
  intros G I. destruct (HL sip (zget_In _ _ _ G)) as (reds & (syms & shifts & Ea & O & Hy & F) & Hr). rewrite Ea in I. apply in_app_or in I as [I|I].
  - destruct (Forall2_In_r _ _ _ _ F I) as (y & Iy & j' & s' & E & N & Gj & Go). injection E as -> ->. exists y, s'.
    split; [reflexivity|]. split; [exact N|]. split; [exact Gj|]. split; [exact Go|]. apply Hy. exact Iy.
  - apply Hr in I as (c & i & q & k & _ & _ & E & _). discriminate.
Qed.
Lemma shift_exists s sip c y : zget states s = Ok sip -> In c (configs sip) -> dotted g c y -> exists j, In (Shift j, [y]) (actions sip).
Proof.
  intros G I D. destruct (HL sip (zget_In _ _ _ G)) as (reds & (syms & shifts & Ea & O & Hy & F) & Hr).
  destruct (Forall2_In_l _ _ _ y F) as (a & Ia & j & s' & -> & _); [apply Hy; eauto|]. exists j. rewrite Ea. apply in_or_app. left. exact Ia.
Qed.
Lemma goto_terminal y j ctx : 0 <= y < nsymbols g -> is_goto g (Shift j, y :: ctx) = Ok (negb (y <? nterminals g)).
Proof.
  intros R. unfold is_goto, is_nonterminal, is_terminal. destruct (Z.leb_spec 0 y); [|lia]. destruct (Z.leb_spec y (nsymbols g)); [|lia]. reflexivity.
Qed.

Lemma moves_iff s x s' : moves p s x s' <-> exists sip, zget states s = Ok sip /\ In (Shift s', [x]) (actions sip).
Proof.
  destruct T as [T1 T2 T3 T4 T5]. pose proof (aug_counts g A) as [C1 C2]. unfold moves. rewrite T1. split.
  - intros [[R E]|(R & N & E)].
    + apply T4 in E as (sip & ctx & G & I & _ & Hx). exists sip. split; [exact G|]. destruct (shift_action s sip s' ctx G I) as (y & _ & -> & _).
      destruct Hx as [<-|[]]. exact I.
    + destruct (proj1 (T5 s (x - nterminals g) s')) as (sip & y & ctx & G & I & _ & Ex); [auto|]. exists sip. split; [exact G|].
      destruct (shift_action s sip s' _ G I) as (y' & _ & E' & _). injection E' as -> ->. replace x with y' by lia. exact I.
  - intros (sip & G & I). destruct (shift_action s sip s' _ G I) as (y & s1 & Ey & N & Gj & _ & c & Ic & D). injection Ey as <-.
    destruct (dotted_range g A c x D) as (R & _ & _). apply zget_bounds in Gj. destruct (Z_lt_le_dec x (nterminals g)) as [Lt|Ge].
    + left. split; [lia|]. apply T4. exists sip, [x]. split; [exact G|]. split; [exact I|]. rewrite goto_terminal by lia.
      destruct (Z.ltb_spec x (nterminals g)); [|lia]. split; [reflexivity | left; reflexivity].
    + right. split; [lia|]. split; [lia|]. apply (T5 s (x - nterminals g) s'). exists sip, x, []. split; [exact G|]. split; [exact I|]. rewrite goto_terminal by lia.
      destruct (Z.ltb_spec x (nterminals g)); [lia|]. split; reflexivity.
Qed.

Lemma sets_get s sip : zget states s = Ok sip -> zget (sets states) s = Ok (configs sip).
Proof. intros G. unfold sets. rewrite zget_map, G. reflexivity. Qed.
Lemma sets_inv s l : zget (sets states) s = Ok l -> exists sip, zget states s = Ok sip /\ l = configs sip.
Proof. unfold sets. rewrite zget_map. destruct (zget states s) as [sip| |]; intros E; try discriminate. injection E as <-. eauto. Qed.

Lemma built_lr : lr p item.
Proof.
  pose proof T as [T1 T2 T3 T4 T5]. destruct M as [M1 M2 M3]. constructor; rewrite ?T1, ?T2.
  - exact A.
  - exact T3.
  - intros s i d (sip & c & q & G & I & Ic). split; [apply zget_bounds in G; exact G|]. exists q. split; [apply Ic|]. eapply config_dot. exact Ic.
  - destruct (zget_in_range states 0 ltac:(lia)) as (sip & G). exists sip, c0, q0. split; [exact G|]. split; [|exact M1].
    apply (sg_first _ _ _ _ (M3 _ _ (sets_get _ _ G)) eq_refl).
  - intros i d (sip & c & q & G & I & Ic). eapply (proj2 (sg_first _ _ _ _ (M3 _ _ (sets_get _ _ G)) eq_refl)); eassumption.
  - intros s (sip & c & q & G & I & Ic). destruct (sg_begin _ _ _ _ (M3 _ _ (sets_get _ _ G)) _ _ _ I Ic) as [[Es _]|(c' & I' & D & _)]; [exact Es|].
    exfalso. destruct (dotted_range g A _ _ D) as (R & _). destruct (aug_accept g A) as (ps & goal & Ep & _). destruct Ic as [_ Gq].
    rewrite Ep, zlen_snoc in Gq. replace (zlen ps + 1 - 1) with (zlen ps) in Gq by lia. rewrite zget_app_last in Gq. injection Gq as <-. cbn [lhs] in R. lia.
  - intros s i d q x j r (sip & c & q' & G & I & Ic) Gq Gx Nx Gr Hl. destruct (config_all g j r 0 Gr) as (cj & Ij); [pose proof (zlen_nonneg (rhs r)); lia|].
    assert (q' = q) as -> by (destruct Ic as [_ Gq']; congruence).
    exists sip, cj, r. split; [exact G|]. split; [|exact Ij]. eapply (sg_closed _ _ _ _ (M3 _ _ (sets_get _ _ G))); [exact I| |exact Nx|exact Ij|exact Hl].
    exists i, d, q. auto.
  - intros s j r (sip & c & q & G & I & Ic) Gr. assert (q = r) as -> by (destruct Ic as [_ Gq]; congruence).
    destruct (sg_begin _ _ _ _ (M3 _ _ (sets_get _ _ G)) _ _ _ I Ic) as [[_ ->]|(c' & I' & (i' & d' & q' & Ic' & Gx) & N)].
    + left. destruct (config_fun g _ _ _ _ _ _ _ Ic M1) as (-> & _). reflexivity.
    + right. exists i', d', q'. split; [exists sip, c', q'; auto|]. split; [apply Ic'|]. auto.
  - intros s i d q x (sip & c & q' & G & I & Ic) Gq Gx. assert (q' = q) as -> by (destruct Ic as [_ Gq']; congruence).
    destruct (shift_exists s sip c x G I) as (j & Hj); [exists i, d, q; auto|]. exists j. apply moves_iff. eauto.
  - intros s i d q x s' (sip & c & q' & G & I & Ic) Gq Gx Mv. assert (q' = q) as -> by (destruct Ic as [_ Gq']; congruence).
    apply moves_iff in Mv as (sip' & G' & Hs). rewrite G in G'. injection G' as <-.
    destruct (shift_action s sip s' _ G Hs) as (y & l & Ey & _ & Gl & Go & _). injection Ey as <-. destruct (sets_inv _ _ Gl) as (sip' & G' & ->).
    exists sip', (c + 1), q. split; [exact G'|]. split; [apply Go; [exact I | exists i, d, q; auto]|]. apply config_next; [exact Ic|]. apply zget_bounds in Gx. lia.
  - intros s x s' i d Mv (sip' & c & q & G' & I & Ic). apply moves_iff in Mv as (sip & G & Hs).
    destruct (shift_action s sip s' _ G Hs) as (y & l & Ey & _ & Gl & Go & _). injection Ey as <-. destruct (sets_inv _ _ Gl) as (sip2 & G2 & ->).
    rewrite G' in G2. injection G2 as <-. destruct (Z.eq_dec d 0) as [->|Nd]; [left; reflexivity|]. right.
    pose proof (config_dot _ _ _ _ _ Ic) as [Rd _]. destruct (proj2 Go _ _ _ _ I Ic ltac:(lia)) as [Ip (i' & d' & q' & Ip' & Gx)].
    destruct (config_fun g _ _ _ _ _ _ _ (config_prev g _ _ _ _ Ic ltac:(lia)) Ip') as (<- & <- & <-).
    exists q. split; [apply Ic|]. split; [exact Gx|]. exists sip, (c - 1), q. auto.
  - intros s x s' Mv. apply moves_iff in Mv as (sip & G & Hs). destruct (shift_action s sip s' _ G Hs) as (y & l & Ey & N & Gl & _).
    split; [exact N|]. apply zget_bounds in Gl. unfold sets in Gl. rewrite zlen_map in Gl. exact Gl.
  - intros s x s' Mv. apply moves_iff in Mv as (sip & G & Hs). destruct (shift_action s sip s' _ G Hs) as (y & l & Ey & N & Gl & _ & c & Ic & (i & d & q & Ii & Gx)).
    injection Ey as <-. exists i, d, q. split; [exists sip, c, q; auto|]. split; [apply Ii | exact Gx].
  - intros s t i E. apply T4 in E as (sip & ctx & G & I & _ & Ht). destruct (HL sip (zget_In _ _ _ G)) as (reds & (syms & shifts & Ea & O & Hy & F) & Hr).
    rewrite Ea in I. apply in_app_or in I as [I|I].
    + destruct (Forall2_In_r _ _ _ _ F I) as (y & Iy & j' & s' & E & _). discriminate.
    + apply Hr in I as (c & i' & q & k & Hc & Ii & E & Hacc). injection E as <- <-. split.
      * exists q. split; [apply Ii|]. exists sip, c, q. auto.
      * intros E. specialize (Hacc E). subst ctx. destruct Ht as [<-|[]]. reflexivity.
Qed.

End Lr.

(** Lookaheads are lookaheads of items and are terminals. *)
Lemma tokens_range g : (forall x t, derives g x t -> Forall (fun '(k, _) => 0 <= k < nterminals g) (yield t)) /\
  (forall xs ts, derives_all g xs ts -> Forall (fun '(k, _) => 0 <= k < nterminals g) (yields ts)).
Proof.
  apply derives_both.
  - intros token text R. repeat constructor; lia.
  - intros i q ts _ _ _ IH. exact IH.
  - constructor.
  - intros x xs t ts _ H1 _ H2. change (yields (t :: ts)) with (yield t ++ yields ts). apply Forall_app. auto.
Qed.
Lemma starts_range g xs t u : starts g xs t u -> 0 <= t < nterminals g -> 0 <= u < nterminals g.
Proof.
  intros (ts & text & text' & w & D & E) R. apply tokens_range in D. destruct (yields ts) as [|[k x] l]; injection E as -> _ _; [exact R|].
  inversion D; subst. assumption.
Qed.

Lemma lookahead_item p item s i d t : lr p item -> lookahead p s i d t -> item s i d /\ 0 <= t < nterminals (p_grammar p) /\
  (i = zlen (productions (p_grammar p)) - 1 -> t = nterminals (p_grammar p) - 1).
Proof.
  intros Hl La. pose proof (aug_counts _ (lr_aug _ _ Hl)) as [C1 C2].
  induction La as [|s i d t q x s' La (I & R & E) Gq Gx Mv|s i d t q x j r u La (I & R & E) Gq Gx Nx Gr El St].
  - split; [apply (lr_start _ _ Hl)|]. split; [lia | reflexivity].
  - split; [eapply (lr_next _ _ Hl); eassumption|]. auto.
  - split; [eapply (lr_close _ _ Hl); eassumption|]. split; [eapply starts_range; eassumption|]. intros ->. exfalso.
    destruct (aug_rhs _ (lr_aug _ _ Hl) q x) as [Rx _]; [eapply zget_In; exact Gq | eapply zget_In; exact Gx|].
    destruct (aug_accept _ (lr_aug _ _ Hl)) as (ps & goal & Ep & _). rewrite Ep, zlen_snoc in Gr.
    replace (zlen ps + 1 - 1) with (zlen ps) in Gr by lia. rewrite zget_app_last in Gr. injection Gr as <-. cbn [lhs] in El. lia.
Qed.

(** From a grammar to the reader *)
Lemma build_parser_lr trace g p : augmented g -> sane_trace trace g -> build_parser trace g = Ok p -> p_grammar p = g /\ exists item, lr p item.
Proof.
  intros A Sn E. unfold build_parser in E. apply bind_ok in E as (states & Es & E).
  destruct (lalr1_ok g A trace states Sn Es) as (c0 & q0 & M & HL). pose proof (aug_counts g A).
  apply accept_parser_tabulated in E; [|lia | unfold get_nnonterminals; lia]. split; [apply (tb_grammar _ _ _ E)|].
  eexists. eapply built_lr; eassumption.
Qed.

Definition no_contexts : grammar -> list config -> list state_in_progress -> list bool -> res contexts_of_states := fun _ _ _ _ => Abort.
Lemma no_contexts_sane g : sane_trace no_contexts g.
Proof. intros cs states adq ctxs E. discriminate. Qed.

Lemma lr0_states g states : augmented g -> build_lalr1_parser no_contexts g = Ok states ->
  exists c0 q0, machine g c0 q0 states /\ forall s, In s states -> lr0_state g (sets states) s.
Proof.
  intros A E. unfold build_lalr1_parser in E. rewrite make_configs_eq in E. cbn [bind] in E.
  destruct (start_configs_ok g A) as (l & El & Hl). rewrite El in E. cbn [bind] in E.
  destruct (lr0_ok g A l Hl) as (c0 & q0 & st & Est & M & HL). rewrite Est in E. cbn [bind] in E.
  apply bind_ok in E as (adq & Ea & E). exists c0, q0. destruct (forallb _ adq); [|discriminate]. injection E as <-. auto.
Qed.

Lemma lr0_covers g p : augmented g -> build_parser no_contexts g = Ok p -> covers p.
Proof.
  intros A E. destruct (build_parser_lr no_contexts g p A (no_contexts_sane g) E) as [Eg _].
  unfold build_parser in E. apply bind_ok in E as (states & Es & E).
  destruct (lr0_states g states A Es) as (c0 & q0 & M & HL). pose proof (aug_counts g A).
  apply accept_parser_tabulated in E; [|lia | unfold get_nnonterminals; lia].
  assert (lr p (item g states)) as Hl by (eapply built_lr; try eassumption; intros s Hs; apply lr0_lalr; auto).
  intros s i q t Gq La. destruct (lookahead_item _ _ _ _ _ _ Hl La) as ((sip & c & q' & G & I & Ic) & R & Eacc). rewrite Eg in *.
  assert (q' = q) as -> by (destruct Ic as [_ Gq']; congruence).
  apply (tb_terminal _ _ _ E). destruct (HL sip (zget_In _ _ _ G)) as (reds & (syms & shifts & Ea & _) & Hr).
  exists sip, (full g i). split; [exact G|]. split; [rewrite Ea; apply in_or_app; right; apply Hr; exists c, i, q; auto|]. split; [reflexivity|].
  unfold full, get_accept_production, get_end_terminal. destruct (Z.eqb_spec i (zlen (productions g) - 1)) as [Ei|Ni].
  - left. symmetry. auto.
  - apply in_zrange. exact R.
Qed.

Lemma build_parser_lr0 trace g p : build_parser no_contexts g = Ok p -> build_parser trace g = Ok p.
Proof.
  unfold build_parser. intros E. apply bind_ok in E as (states & Es & E). rewrite <- E. clear E. unfold build_lalr1_parser in *.
  destruct (make_configs g); try discriminate. cbn [bind] in *. destruct (get_left_hand_sides_to_start_configs _ g); try discriminate. cbn [bind] in *.
  destruct (build_lr0_parser _ g _); try discriminate. cbn [bind] in *. destruct (mapM _ _); try discriminate. cbn [bind] in *.
  destruct (forallb _ _); [injection Es as ->; reflexivity | discriminate].
Qed.

Lemma built_sound {V} trace g p (acts : actions_of V) fuel tokens : augmented g -> sane_trace trace g -> build_parser trace g = Ok p -> tokens_of g tokens ->
  exists r, read_all fuel p acts tokens = Ok r /\ (forall v, r = Read v -> exists t, parses g t tokens /\ value acts t = Some v).
Proof.
  intros A Sn E Tk. destruct (build_parser_lr trace g p A Sn E) as (<- & it & Hl). 
  exact (read_sound p it Hl acts fuel tokens Tk).
Qed.
