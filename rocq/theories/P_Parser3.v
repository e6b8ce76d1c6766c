(** Closing a set of configurations. *)
From Verif Require Import Prelude M_Automaton M_Grammar M_Parser S_Grammar P_Automaton P_Automaton2 P_Automaton5 P_Parser P_Parser2.
Local Open Scope Z_scope.

Lemma close_visits scs : forall s q, ordered s ->
  exists s' add, fold_left close_visit scs (s, q) = (s', q ++ add) /\ ordered s' /\
  (length s' = length s + length add)%nat /\
  (forall x, In x s' <-> In x s \/ In x scs) /\ (forall x, In x s' <-> In x s \/ In x add).
Proof.
  induction scs as [|c scs IH]; intros s q O.
  - exists s, []. cbn [fold_left]. rewrite app_nil_r. split; [reflexivity|]. split; [exact O|]. split; [cbn; lia|]. cbn. split; intros x; tauto.
  - cbn [fold_left close_visit]. destruct (set_count c s) eqn:E.
    + apply set_count_In in E. destruct (IH s q O) as (s' & add & Ef & O' & Len & I1 & I2). exists s', add. split; [exact Ef|]. split; [exact O'|]. split; [exact Len|].
      split; [|exact I2]. intros x. rewrite I1. cbn [In]. split; [tauto|]. intros [|[<-|]]; tauto.
    + assert (~ In c s) as N by (rewrite <- set_count_In; congruence).
      destruct (IH (set_insert c s) (q ++ [c]) (set_insert_ordered c s O)) as (s' & add & Ef & O' & Len & I1 & I2).
      exists s', (c :: add). rewrite <- app_assoc in Ef. split; [exact Ef|]. split; [exact O'|].
      split; [rewrite set_insert_length in Len by exact N; cbn [length]; lia|].
      split; intros x; [rewrite I1 | rewrite I2]; rewrite set_insert_In; cbn [In]; intuition congruence.
Qed.

Section Close.
Variable g : grammar.
Hypothesis A : augmented g.
Let cs := configs_from 0 (productions g).
Let n := zlen cs.
Variable lhs2sc : list (list Z).
Hypothesis St : starts_ok g n lhs2sc.

Definition closed (s : list Z) : Prop := forall c x c' i q,
  In c s -> dotted g c x -> nterminals g <= x -> is_config g c' i 0 q -> lhs q = x -> In c' s.
Definition grown (ks s : list Z) : Prop := forall c, In c s -> In c ks \/
  exists i q c', is_config g c i 0 q /\ In c' s /\ dotted g c' (lhs q) /\ nterminals g <= lhs q.

Record closing_configs (ks s q : list Z) : Prop := {
  cc_ordered : ordered s;
  cc_within : within n s;
  cc_queue : forall c, In c q -> In c s;
  cc_start : forall c, In c ks -> In c s;
  cc_grown : grown ks s }.

Lemma close_loop_ok ks : forall fuel s q, closing_configs ks s q -> (length q + Z.to_nat n <= fuel + length s)%nat ->
  (forall c x c' i r, In c s -> ~ In c q -> dotted g c x -> nterminals g <= x -> is_config g c' i 0 r -> lhs r = x -> In c' s) ->
  exists out, close_loop fuel cs g lhs2sc s q = Ok out /\ ordered out /\ within n out /\ closed out /\ grown ks out /\ (forall c, In c ks -> In c out).
Proof.
  induction fuel as [|fuel IH]; intros s q C F Cl.
  - assert (q = []) as ->.
    { pose proof (ordered_within_length n s (zlen_nonneg cs) (cc_ordered _ _ _ C) (cc_within _ _ _ C)). destruct q; [reflexivity | cbn in F; lia]. }
    exists s. split; [reflexivity|]. destruct C as [C1 C2 C3 C4 C5]. split; [exact C1|]. split; [exact C2|]. split; [|split; assumption].
    intros c x c' i r H. apply Cl; [exact H | intros []].
  - destruct q as [|c q].
    + exists s. split; [reflexivity|]. destruct C as [C1 C2 C3 C4 C5]. split; [exact C1|]. split; [exact C2|]. split; [|split; assumption].
      intros c x c' i r H. apply Cl; [exact H | intros []].
    + destruct C as [C1 C2 C3 C4 C5]. cbn [close_loop]. assert (In c s) as Hc by (apply C3; left; reflexivity).
      pose proof (C2 c Hc) as Rc. fold n in Rc.
      assert (forall c, In c q -> In c s) as C3' by (intros; apply C3; right; assumption).
      assert (closing_configs ks s q) as C' by (constructor; assumption).
      pose proof (after_dot_ok g c Rc) as AD. fold cs in AD. destruct AD as [(x & -> & D)|(-> & i & q0 & Ic)]; cbn [bind].
      2:{ apply IH; [exact C' | cbn [length] in F; lia|]. intros c1 x1 c' i' r H1 Nq D Nx I El. eapply Cl; try eassumption.
          intros [<-|X]; [|contradiction]. exact (proj2 (after_dot_none g _ _ _ Ic) _ D). }
      pose proof (dotted_range g A c x D) as (Rx & _ & _).
      unfold is_terminal. replace (0 <=? x) with true by (symmetry; apply Z.leb_le; lia). replace (x <=? nsymbols g) with true by (symmetry; apply Z.leb_le; lia).
      cbn [check bind]. destruct (Z.ltb_spec x (nterminals g)) as [Lx|Lx].
      { apply IH; [exact C' | cbn [length] in F; lia|]. intros c1 x1 c' i' r H1 Nq D1 Nx I El. eapply Cl; try eassumption.
        intros [<-|X]; [|contradiction]. rewrite (dotted_fun g _ _ _ D1 D) in Nx. lia. }
      destruct St as [Ls Hs]. destruct (zget_in_range lhs2sc x ltac:(lia)) as (e & Ge).
      replace (vget lhs2sc x) with (Ok e) by (symmetry; apply vget_ok; exact Ge). cbn [bind].
      destruct (close_visits e s q C1) as (s' & add & -> & O' & Len & I1 & I2).
      apply IH.
      * constructor.
        -- exact O'.
        -- intros y Hy. apply I1 in Hy as [Hy|Hy]; [apply C2; exact Hy|]. apply (Hs _ _ Ge) in Hy as (_ & i & r & Iy & _). apply config_dot in Iy. apply Iy.
        -- intros y Hy. apply I2. apply in_app_or in Hy as [Hy|Hy]; auto.
        -- intros y Hy. apply I1. auto.
        -- intros y Hy. apply I1 in Hy as [Hy|Hy].
           ++ destruct (C5 y Hy) as [|(i & r & c' & Iy & Hc' & Dc' & Nc')]; [auto|]. right. exists i, r, c'. split; [exact Iy|]. split; [apply I1; auto|]. auto.
           ++ right. apply (Hs _ _ Ge) in Hy as (_ & i & r & Iy & El). exists i, r, c. split; [exact Iy|]. split; [apply I1; auto|]. rewrite El. auto.
      * rewrite app_length, Len. cbn [length] in F. lia.
      * intros c1 x1 c' i r H1 Nq D1 Nx I El. assert (~ In c1 q) as Nq1 by (intros X; apply Nq; apply in_or_app; auto).
        assert (In c1 s) as H1' by (apply I2 in H1 as [|H1]; [assumption|]; exfalso; apply Nq; apply in_or_app; auto).
        destruct (Z.eq_dec c1 c) as [->|Nc].
        -- rewrite (dotted_fun g _ _ _ D1 D) in *. apply I1. right. apply (Hs _ _ Ge). split; [apply config_dot in I; apply I|]. exists i, r. auto.
        -- apply I1. left. eapply (Cl c1); try eassumption. intros [X|X]; [congruence | contradiction].
Qed.

Lemma close_ok ks : NoDup ks -> within n ks ->
  exists out, close ks cs g lhs2sc = Ok out /\ ordered out /\ within n out /\ closed out /\ grown ks out /\ (forall c, In c ks -> In c out).
Proof.
  intros N W. unfold close.
  assert (forall s0, ordered s0 -> NoDup ks -> (forall c, In c ks -> ~ In c s0) ->
    exists s, foldM (fun s config_i => _ <- check (negb (set_count config_i s)) ;; Ok (set_insert config_i s)) ks s0 = Ok s /\ ordered s /\
      (forall c, In c s <-> In c s0 \/ In c ks) /\ (length s = length s0 + length ks)%nat) as X.
  { clear W N. induction ks as [|c ks IH]; intros s0 O N D.
    - exists s0. cbn. split; [reflexivity|]. split; [exact O|]. split; [tauto | lia].
    - apply NoDup_cons_iff in N as [N1 N2]. cbn [foldM].
      replace (set_count c s0) with false.
      2:{ symmetry. apply not_true_iff_false. rewrite set_count_In. apply D. left; reflexivity. }
      cbn [negb check bind]. destruct (IH (set_insert c s0) (set_insert_ordered c s0 O) N2) as (s & E & O' & I & Len).
      { intros c' H X. apply set_insert_In in X as [->|X]; [contradiction|]. apply (D c'); [right; exact H | exact X]. }
      exists s. split; [exact E|]. split; [exact O'|]. split.
      + intros y. rewrite I, set_insert_In. cbn [In]. intuition congruence.
      + rewrite Len, set_insert_length by (apply D; left; reflexivity). cbn [length]. lia. }
  destruct (X [] ltac:(constructor) N ltac:(intros ? ? [])) as (s & -> & O & I & Len). cbn [bind].
  apply close_loop_ok.
  - constructor.
    + exact O.
    + intros c Hc. apply I in Hc as [[]|Hc]. auto.
    + intros c Hc. apply I. auto.
    + intros c Hc. apply I. auto.
    + intros c Hc. apply I in Hc as [[]|Hc]. auto.
  - rewrite Len. cbn [length]. unfold n, zlen. rewrite Nat2Z.id. lia.
  - intros c x c' i q Hc Nq. exfalso. apply Nq. apply I in Hc as [[]|Hc]. exact Hc.
Qed.
End Close.
