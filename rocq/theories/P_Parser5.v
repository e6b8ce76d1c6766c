(** The tables. *)
From Verif Require Import Prelude M_Automaton M_Grammar M_Parser S_Grammar P_Automaton P_Parser.
Local Open Scope Z_scope.

Lemma foldM_partial {S X} (f : S -> X -> res S) (I : list X -> S -> Prop) :
  (forall don x s s', I don s -> f s x = Ok s' -> I (don ++ [x]) s') ->
  forall l don s s', I don s -> foldM f l s = Ok s' -> I (don ++ l) s'.
Proof.
  intros H. induction l as [|x l IH]; intros don s s' Is E.
  - injection E as <-. rewrite app_nil_r. exact Is.
  - cbn [foldM] in E. apply bind_ok in E as (s1 & E1 & E). replace (don ++ x :: l) with ((don ++ [x]) ++ l) by (rewrite <- app_assoc; reflexivity).
    eapply IH; [|exact E]. eapply H; eassumption.
Qed.

Lemma check_ok b u : check b = Ok u -> b = true.
Proof. destruct b; [reflexivity | discriminate]. Qed.

Lemma cell_set_spec {A} (t : list (list A)) r c v t' : cell_set t r c v = Ok t' ->
  zlen t' = zlen t /\ cell_get t' r c = Ok v /\ (forall i j, (i, j) <> (r, c) -> cell_get t' i j = cell_get t i j).
Proof.
  unfold cell_set. intros E. apply bind_ok in E as (row & Er & E). apply bind_ok in E as (row' & Es & E).
  unfold vset in Es, E. apply bind_ok in Es as (u & _ & Es). apply bind_ok in E as (u' & _ & E).
  apply vget_ok in Er. split; [eapply zset_zlen; exact E|]. split.
  - unfold cell_get. rewrite (proj2 (vget_ok _ _ _) (zset_get_eq _ _ _ _ E)). cbn [bind]. apply vget_ok. eapply zset_get_eq. exact Es.
  - intros i j N. unfold cell_get, vget. rewrite (zset_zlen _ _ _ _ E). destruct (Z.eq_dec r i) as [<-|Ni].
    + rewrite (zset_get_eq _ _ _ _ E), Er. destruct (check _) as [[]| |]; cbn [bind]; try reflexivity.
      rewrite (zset_zlen _ _ _ _ Es). rewrite (zset_get_ne _ _ j _ _ Es) by congruence. reflexivity.
    + rewrite (zset_get_ne _ _ i _ _ E) by congruence. reflexivity.
Qed.

(** The items (state, action) done so far, and the parser with their entries *)
Record entered (g : grammar) (n : Z) (don : list (Z * (action * list Z))) (p : parser) : Prop := {
  en_grammar : p_grammar p = g;
  en_rows : zlen (terminal_table p) = n;
  en_cells : forall s t, 0 <= s < n -> 0 <= t < nterminals g -> exists a, cell_get (terminal_table p) s t = Ok a;
  en_gotos : forall s x, 0 <= s < n -> 0 <= x < get_nnonterminals g -> exists j, cell_get (nonterminal_table p) s x = Ok j;
  en_terminal : forall s t a, cell_get (terminal_table p) s t = Ok (Some a) <->
      exists ctx, In (s, (a, ctx)) don /\ is_goto g (a, ctx) = Ok false /\ In t ctx;
  en_nonterminal : forall s x j, cell_get (nonterminal_table p) s x = Ok j /\ j <> -1 <->
      exists y ctx, In (s, (Shift j, y :: ctx)) don /\ is_goto g (Shift j, y :: ctx) = Ok true /\ x = y - nterminals g }.

Lemma terminal_entries g n don s a ctx0 : is_goto g (a, ctx0) = Ok false -> forall ctx dn p p',
  (forall t, In t (dn ++ ctx) <-> In t ctx0) ->
  p_grammar p = g -> zlen (terminal_table p) = n ->
  (forall s t, 0 <= s < n -> 0 <= t < nterminals g -> exists a, cell_get (terminal_table p) s t = Ok a) ->
  (forall s' t b, cell_get (terminal_table p) s' t = Ok (Some b) <->
      (exists c, In (s', (b, c)) don /\ is_goto g (b, c) = Ok false /\ In t c) \/ (s' = s /\ b = a /\ In t dn)) ->
  foldM (fun out terminal => t <- is_terminal g terminal ;; _ <- check t ;; add_terminal_action out s terminal a) ctx p = Ok p' ->
  p_grammar p' = g /\ zlen (terminal_table p') = n /\ nonterminal_table p' = nonterminal_table p /\
  (forall s t, 0 <= s < n -> 0 <= t < nterminals g -> exists a, cell_get (terminal_table p') s t = Ok a) /\
  (forall s' t b, cell_get (terminal_table p') s' t = Ok (Some b) <->
      (exists c, In (s', (b, c)) (don ++ [(s, (a, ctx0))]) /\ is_goto g (b, c) = Ok false /\ In t c)).
Proof.
  intros Hg. induction ctx as [|t0 ctx IH]; intros dn p p' Hd G Z C T E.
  - injection E as <-. split; [exact G|]. split; [exact Z|]. split; [reflexivity|]. split; [exact C|]. intros s' t b. rewrite T. split.
    + intros [(c & H1 & H2 & H3)|(-> & -> & H3)].
      * exists c. split; [apply in_or_app; left; exact H1 | auto].
      * exists ctx0. split; [apply in_or_app; right; left; reflexivity|]. split; [exact Hg|]. apply Hd. rewrite app_nil_r. exact H3.
    + intros (c & H1 & H2 & H3). apply in_app_or in H1 as [H1|[H1|[]]]; [left; eauto|]. injection H1 as <- <- <-. right.
      split; [reflexivity|]. split; [reflexivity|]. apply Hd in H3. rewrite app_nil_r in H3. exact H3.
  - cbn [foldM] in E. apply bind_ok in E as (p1 & E1 & E). apply bind_ok in E1 as (tt1 & _ & E1). apply bind_ok in E1 as (? & _ & E1).
    unfold add_terminal_action in E1. apply bind_ok in E1 as (old & Eo & E1). apply bind_ok in E1 as (? & Ec & E1).
    apply bind_ok in E1 as (? & _ & E1). apply bind_ok in E1 as (t' & Et & E1). injection E1 as <-.
    apply check_ok in Ec. destruct old; [discriminate|]. destruct (cell_set_spec _ _ _ _ _ Et) as (Zt & Gt & Ot).
    specialize (IH (dn ++ [t0]) (mk_parser (p_grammar p) t' (nonterminal_table p)) p'). cbn [p_grammar terminal_table nonterminal_table] in IH.
    apply IH; [| exact G | congruence | | | exact E].
    + intros t. rewrite <- app_assoc. apply Hd.
    + intros s' t Rs Rt. destruct (Z.eq_dec s' s) as [->|Ns]; [destruct (Z.eq_dec t t0) as [->|Nt]|]; [eauto| |];
        rewrite Ot by congruence; auto.
    + intros s' t b. destruct (Z.eq_dec s' s) as [->|Ns]; [destruct (Z.eq_dec t t0) as [->|Nt]|].
      * rewrite Gt. split.
        -- intros X. injection X as <-. right. split; [reflexivity|]. split; [reflexivity|]. apply in_or_app. right. left. reflexivity.
        -- intros [X|(_ & -> & _)]; [|reflexivity]. exfalso. assert (cell_get (terminal_table p) s t0 = Ok (Some b)) as Y by (apply T; left; exact X). congruence.
      * rewrite Ot by congruence. rewrite T. rewrite in_app_iff. split.
        -- intros [X|(X1 & X2 & X3)]; auto.
        -- intros [X|(X1 & X2 & [X3|[X3|[]]])]; auto. congruence.
      * rewrite Ot by congruence. rewrite T. rewrite in_app_iff. split.
        -- intros [X|(X1 & X2 & X3)]; auto.
        -- intros [X|(X1 & X2 & X3)]; [auto|congruence].
Qed.

Lemma accept_action_entered g n don p s a p' : entered g n don p -> accept_action g s p a = Ok p' -> entered g n (don ++ [(s, a)]) p'.
Proof.
  intros [Eg Er Ec Eo Et En] E. unfold accept_action in E. apply bind_ok in E as (goto & Hg & E). destruct a as [a ctx].
  assert (goto = false -> foldM (fun out terminal => t <- is_terminal g terminal ;; _ <- check t ;; add_terminal_action out s terminal a) ctx p = Ok p' ->
    entered g n (don ++ [(s, (a, ctx))]) p') as F.
  { intros -> F. destruct (terminal_entries g n don s a ctx Hg ctx [] p p') as (Q1 & Q2 & Q3 & Q4 & Q5); auto.
    - intros t. reflexivity.
    - intros s' t b. rewrite Et. split; [auto|]. intros [X|(_ & _ & [])]. exact X.
    - constructor; auto; rewrite ?Q3; [exact Eo|]. intros s' x j. rewrite En. split; intros (y & c & H1 & H2 & H3); exists y, c; (split; [|auto]).
      + apply in_or_app. left. exact H1.
      + apply in_app_or in H1 as [H1|[H1|[]]]; [exact H1|]. injection H1 as -> -> ->. congruence. }
  destruct goto; [|exact (F eq_refl E)]. destruct a as [nxt|i]; [|discriminate Hg]. destruct ctx as [|y ctx]; [discriminate Hg|].
  unfold add_nonterminal_action in E. apply bind_ok in E as (u1 & C1 & E). apply bind_ok in E as (u2 & C2 & E). apply bind_ok in E as (old & E1 & E).
  apply bind_ok in E as (u3 & C3 & E). apply bind_ok in E as (t' & E2 & E). injection E as <-. apply check_ok in C1, C2, C3.
  apply Z.leb_le in C1. apply Z.eqb_eq in C3. subst old.
  destruct (cell_set_spec _ _ _ _ _ E2) as (Zt & Gt & Ot). constructor; cbn [p_grammar terminal_table nonterminal_table]; auto.
  - intros s' x Rs Rx. destruct (Z.eq_dec s' s) as [->|Ns]; [destruct (Z.eq_dec x (as_nonterminal g y)) as [->|Nt]|]; [eauto| |];
      rewrite Ot by congruence; auto.
  - intros s' t b. rewrite Et. split; intros (c & H1 & H2 & H3); exists c; (split; [|auto]).
    + apply in_or_app. left. exact H1.
    + apply in_app_or in H1 as [H1|[H1|[]]]; [exact H1|]. injection H1 as -> <- <-. congruence.
  - intros s' x j. assert (forall s' x j, (s', x) <> (s, as_nonterminal g y) -> 
      (exists y0 ctx0, In (s', (Shift j, y0 :: ctx0)) (don ++ [(s, (Shift nxt, y :: ctx))]) /\ is_goto g (Shift j, y0 :: ctx0) = Ok true /\ x = y0 - nterminals g) <->
      (exists y0 ctx0, In (s', (Shift j, y0 :: ctx0)) don /\ is_goto g (Shift j, y0 :: ctx0) = Ok true /\ x = y0 - nterminals g)) as X.
    { clear. intros s' x j N. split; intros (y0 & c & H1 & H2 & H3); exists y0, c; (split; [|auto]).
      - apply in_app_or in H1 as [H1|[H1|[]]]; [exact H1|]. injection H1 as <- <- <- <-. unfold as_nonterminal in N. congruence.
      - apply in_or_app. left. exact H1. }
    destruct (Z.eq_dec s' s) as [->|Ns]; [destruct (Z.eq_dec x (as_nonterminal g y)) as [->|Nt]|].
    2,3: rewrite Ot by congruence; rewrite En; symmetry; apply X; congruence.
    rewrite Gt. split.
    + intros [Ej _]. injection Ej as <-. exists y, ctx. split; [apply in_or_app; right; left; reflexivity|]. split; [exact Hg | reflexivity].
    + intros (y0 & c & H1 & H2 & H3). apply in_app_or in H1 as [H1|[H1|[]]].
      * exfalso. destruct (proj2 (En s (as_nonterminal g y) j)) as [Z1 Z2]; [eauto|]. congruence.
      * injection H1 as <- <- <-. split; [reflexivity | lia].
Qed.

Lemma new_states g (states : list state_in_progress) : 0 <= nterminals g -> 0 <= get_nnonterminals g ->
  entered g (zlen states) [] (fold_left (fun out _ => add_parser_state out) states (mk_parser g [] [])).
Proof.
  intros Nt Nn. set (row := repeat (@None action) (Z.to_nat (nterminals g))). set (row' := repeat (-1) (Z.to_nat (get_nnonterminals g))).
  assert (forall k, fold_left (fun out _ => add_parser_state out) states (mk_parser g (repeat row k) (repeat row' k)) =
     mk_parser g (repeat row (k + length states)) (repeat row' (k + length states))) as X.
  { induction states as [|s states IH]; intros k; [cbn [fold_left length]; rewrite Nat.add_0_r; reflexivity|].
    cbn [fold_left length]. unfold add_parser_state at 2. cbn [p_grammar terminal_table nonterminal_table]. fold row row'.
    replace (repeat row k ++ [row]) with (repeat row (S k)) by apply (repeat_cons k row).
    replace (repeat row' k ++ [row']) with (repeat row' (S k)) by apply (repeat_cons k row').
    rewrite IH. replace (S k + length states)%nat with (k + S (length states))%nat by lia. reflexivity. }
  specialize (X O). cbn [repeat Nat.add] in X. rewrite X.
  assert (forall A (v : A) k i, zget (repeat v k) i = Ok v <-> 0 <= i < Z.of_nat k) as R.
  { intros A v k i. split.
    - intros H. apply zget_bounds in H. unfold zlen in H. rewrite repeat_length in H. exact H.
    - intros H. destruct (zget_in_range (repeat v k) i) as (w & G); [unfold zlen; rewrite repeat_length; exact H|].
      rewrite G. f_equal. apply zget_In in G. symmetry. apply repeat_spec in G. auto. }
  assert (forall A (v : A) k m s t a, cell_get (repeat (repeat v k) m) s t = Ok a -> a = v) as C.
  { intros A v k m s t a E. apply bind_ok in E as (r & E1 & E). apply vget_ok in E1, E. apply zget_In in E1, E.
    apply repeat_spec in E1. subst r. apply repeat_spec in E. exact E. }
  constructor; cbn [p_grammar terminal_table nonterminal_table]; auto.
  - unfold zlen. rewrite repeat_length. reflexivity.
  - intros s t Rs Rt. exists None. unfold cell_get. rewrite (proj2 (vget_ok _ _ row)) by (apply R; exact Rs). cbn [bind].
    apply vget_ok. apply R. lia.
  - intros s t Rs Rt. exists (-1). unfold cell_get. rewrite (proj2 (vget_ok _ _ row')) by (apply R; exact Rs). cbn [bind].
    apply vget_ok. apply R. lia.
  - intros s t a. split; [intros H; apply C in H; discriminate | intros (c & [] & _)].
  - intros s t a. split; [intros [H N]; apply C in H; congruence | intros (y & c & [] & _)].
Qed.

(** accept_parser *)
Record tabulated (g : grammar) (states : list state_in_progress) (p : parser) : Prop := {
  tb_grammar : p_grammar p = g;
  tb_rows : zlen (terminal_table p) = zlen states;
  tb_cells : forall s t, 0 <= s < zlen states -> 0 <= t < nterminals g -> exists a, cell_get (terminal_table p) s t = Ok a;
  tb_terminal : forall s t a, cell_get (terminal_table p) s t = Ok (Some a) <->
      exists sip ctx, zget states s = Ok sip /\ In (a, ctx) (actions sip) /\ is_goto g (a, ctx) = Ok false /\ In t ctx;
  tb_nonterminal : forall s x j, cell_get (nonterminal_table p) s x = Ok j /\ j <> -1 <->
      exists sip y ctx, zget states s = Ok sip /\ In (Shift j, y :: ctx) (actions sip) /\ is_goto g (Shift j, y :: ctx) = Ok true /\ x = y - nterminals g }.

Lemma accept_parser_tabulated g states p : 0 <= nterminals g -> 0 <= get_nnonterminals g -> accept_parser g states = Ok p -> tabulated g states p.
Proof.
  intros Nt Nn E. unfold accept_parser, forM in E.
  set (I := fun (is : list Z) p => exists don, entered g (zlen states) don p /\
     forall s a, In (s, a) don <-> In s is /\ exists sip, zget states s = Ok sip /\ In a (actions sip)).
  assert (I ([] ++ zrange (zlen states)) p) as (don & En & D).
  { eapply (foldM_partial _ I) in E; [exact E| |].
    - clear E. intros is i s s' (don & En & D) E. apply bind_ok in E as (sip & Gs & E). apply vget_ok in Gs.
      set (J := fun (l : list (action * list Z)) p => entered g (zlen states) (don ++ map (pair i) l) p).
      exists (don ++ map (pair i) (actions sip)). split.
      + eapply (foldM_partial _ J) with (don := []) in E; [exact E| |].
        * intros l x q q' H Hx. unfold J in *. rewrite map_app, app_assoc. eapply accept_action_entered; eassumption.
        * unfold J. cbn [map]. rewrite app_nil_r. exact En.
      + intros s1 a. rewrite !in_app_iff, D, in_map_iff. split.
        * intros [(H1 & H2)|(b & Eb & H2)]; [auto|]. injection Eb as <- <-. split; [right; left; reflexivity | eauto].
        * intros ([H1|[H1|[]]] & sip' & G' & H2); [left; split; [exact H1|eauto]|]. subst s1. right. rewrite Gs in G'. injection G' as <-. eauto.
    - exists []. split; [apply new_states; assumption|]. intros s a. split; [intros [] | intros [[] _]]. }
  destruct En as [E1 E2 E3 E4 E5 E6]. constructor; auto.
  - intros s t a. rewrite E5. split.
    + intros (ctx & H1 & H2 & H3). apply D in H1 as (_ & sip & G & H1). exists sip, ctx. auto.
    + intros (sip & ctx & G & H1 & H2 & H3). exists ctx. split; [|auto]. apply D. split; [|eauto].
      apply in_zrange. apply zget_bounds in G. exact G.
  - intros s x j. rewrite E6. split.
    + intros (y & ctx & H1 & H2 & H3). apply D in H1 as (_ & sip & G & H1). exists sip, y, ctx. auto.
    + intros (sip & y & ctx & G & H1 & H2 & H3). exists y, ctx. split; [|auto]. apply D. split; [|eauto].
      apply in_zrange. apply zget_bounds in G. exact G.
Qed.
