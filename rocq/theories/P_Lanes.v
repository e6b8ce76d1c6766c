(** Lane tracing leaves the context of the accept production alone. *)
From Verif Require Import Prelude M_Automaton M_Grammar M_Parser M_Lanes S_Grammar P_Automaton P_Parser P_Parser5 P_Parser6.
Local Open Scope Z_scope.

Lemma Forall2_by_nth {A B} (P : A -> B -> Prop) l : forall m, length l = length m -> (forall i x y, nth_error l i = Some x -> nth_error m i = Some y -> P x y) -> Forall2 P l m.
Proof. induction l as [|a l IH]; intros [|b m] L H; try discriminate; constructor; [apply (H 0%nat); reflexivity|]. apply IH; [injection L as L; exact L|]. intros i x y Hx Hy. apply (H (S i)); assumption. Qed.

(* ------------------------------------------------------------------ *)
(** Numbering of the configurations of the states *)
Fixpoint scs_from (k : Z) (states : list state_in_progress) : list (Z * Z) :=
  match states with [] => [] | s :: states => map (fun j => (k, j)) (zrange (zlen (configs s))) ++ scs_from (k + 1) states end.

Lemma form_state_configs_eq states : form_state_configs states = scs_from 0 states.
Proof.
  unfold form_state_configs. assert (forall k, List.concat (map (fun '(i, s) => map (fun j => (i, j)) (zrange (zlen (configs s))))
    (combine (map (fun i => k + i) (zrange (zlen states))) states)) = scs_from k states) as X.
  { induction states as [|s states IH]; intros k; [reflexivity|]. rewrite zlen_cons.
    rewrite (zrange_split_0 (zlen states + 1)) by (pose proof (zlen_nonneg states); lia). replace (zlen states + 1 - 1) with (zlen states) by lia.
    cbn [map combine List.concat scs_from]. replace (k + 0) with k by lia. f_equal. rewrite <- IH. rewrite map_map. do 3 f_equal. apply map_ext. intros; lia. }
  rewrite <- X. do 3 f_equal. rewrite <- (map_id (zrange _)) at 1. apply map_ext. intros; lia.
Qed.

Lemma scs_from_split : forall st1 k s st2, exists pre post, scs_from k (st1 ++ s :: st2) = pre ++ map (fun j => (k + zlen st1, j)) (zrange (zlen (configs s))) ++ post /\
  (forall x, In x pre -> fst x < k + zlen st1) /\ (forall x, In x post -> k + zlen st1 < fst x).
Proof.
  assert (forall st k x, In x (scs_from k st) -> k <= fst x) as Lo.
  { induction st as [|s st IH]; intros k x I; [destruct I|]. cbn [scs_from] in I. apply in_app_or in I as [I|I].
    - apply in_map_iff in I as (j & <- & _). cbn. lia.
    - apply IH in I. lia. }
  induction st1 as [|s1 st1 IH]; intros k s st2.
  - exists [], (scs_from (k + 1) st2). cbn [app scs_from]. replace (k + zlen (@nil state_in_progress)) with k by (change (zlen (@nil state_in_progress)) with 0; lia).
    split; [reflexivity|]. split; [intros x []|]. intros x I. apply Lo in I. lia.
  - destruct (IH (k + 1) s st2) as (pre & post & E & P1 & P2). cbn [app scs_from]. rewrite E. rewrite zlen_cons.
    replace (k + 1 + zlen st1) with (k + (zlen st1 + 1)) in * by lia.
    exists (map (fun j => (k, j)) (zrange (zlen (configs s1))) ++ pre), post. rewrite <- app_assoc. split; [reflexivity|]. split; [|exact P2].
    intros x I. apply in_app_or in I as [I|I]; [|auto]. apply in_map_iff in I as (j & <- & _). cbn. pose proof (zlen_nonneg st1). lia.
Qed.

Lemma add_edge_spec gr i j gr' : add_edge gr i j = Ok gr' ->
  zlen gr' = zlen gr /\ forall k e, zget gr k = Ok e -> zget gr' k = Ok (if k =? i then e ++ [j] else e).
Proof.
  unfold add_edge. intros E. apply bind_ok in E as (e & G & E). unfold vset in E. apply bind_ok in E as (u & _ & E). apply vget_ok in G.
  split; [eapply zset_zlen; exact E|]. intros k e' G'. destruct (Z.eqb_spec k i) as [->|N].
  - rewrite (zset_get_eq _ _ _ _ E). congruence.
  - rewrite (zset_get_ne _ _ k _ _ E) by congruence. exact G'.
Qed.

Lemma states_to_scs scs states s2 : form_states_to_state_configs scs states = Ok s2 -> zlen s2 = zlen states /\
  forall k, 0 <= k < zlen states -> zget s2 k = Ok (filter (fun i => match zget scs i with Ok sc => fst sc =? k | _ => false end) (zrange (zlen scs))).
Proof.
  intros E. unfold form_states_to_state_configs, forM in E.
  set (I := fun (is : list Z) (out : list (list Z)) => zlen out = zlen states /\
    forall k, 0 <= k < zlen states -> zget out k = Ok (filter (fun i => match zget scs i with Ok sc => fst sc =? k | _ => false end) is)).
  apply (foldM_partial _ I) with (don := []) in E; [exact E| |].
  - intros don i out out' [Il Ig] Ei. apply bind_ok in Ei as (sc & Gsc & Ei). apply vget_ok in Gsc. destruct (add_edge_spec _ _ _ _ Ei) as [Ll Lg].
    split; [congruence|]. intros k Rk. rewrite (Lg _ _ (Ig k Rk)). rewrite filter_app. cbn [filter]. rewrite Gsc. rewrite Z.eqb_sym.
    destruct (fst sc =? k); [reflexivity | rewrite app_nil_r; reflexivity].
  - split; [unfold make_graph_with_nnodes, zlen; rewrite repeat_length; lia|]. intros k Rk. unfold make_graph_with_nnodes.
    destruct (zget_in_range (repeat (@nil Z) (Z.to_nat (zlen states))) k) as (e & G); [unfold zlen in *; rewrite repeat_length; lia|].
    rewrite G. apply zget_In in G. apply repeat_spec in G. subst e. reflexivity.
Qed.

Lemma filter_positions {X} (P : X -> bool) pre mid post :
  (forall x, In x pre -> P x = false) -> (forall x, In x mid -> P x = true) -> (forall x, In x post -> P x = false) ->
  filter (fun i => match zget (pre ++ mid ++ post) i with Ok x => P x | _ => false end) (zrange (zlen (pre ++ mid ++ post))) =
  map (fun j => zlen pre + j) (zrange (zlen mid)).
Proof.
  intros H1 H2 H3.
  assert (forall (l : list X) a (f : Z -> bool) b, (forall j, 0 <= j < zlen l -> f (a + j) = b) -> filter f (map (fun j => a + j) (zrange (zlen l))) = if b then map (fun j => a + j) (zrange (zlen l)) else []) as F.
  { intros l0 a f b. generalize (zlen l0). intros m. intros H.
    assert (forall x, In x (map (fun j => a + j) (zrange m)) -> f x = b) as Hx by (intros x Hx; apply in_map_iff in Hx as (j & <- & Hj); apply in_zrange in Hj; auto).
    revert Hx. generalize (map (fun j => a + j) (zrange m)). clear. intros l. induction l as [|x l IH]; intros H; [destruct b; reflexivity|].
    cbn [filter]. rewrite (H x (or_introl eq_refl)). rewrite IH by (intros y Hy; apply H; right; exact Hy). destruct b; reflexivity. }
  assert (zrange (zlen (pre ++ mid ++ post)) = map (fun j => 0 + j) (zrange (zlen pre)) ++ map (fun j => zlen pre + j) (zrange (zlen mid)) ++ map (fun j => (zlen pre + zlen mid) + j) (zrange (zlen post))) as Ez.
  { pose proof (zlen_nonneg pre). pose proof (zlen_nonneg mid). pose proof (zlen_nonneg post).
    apply list_eq_zget.
    - rewrite !zlen_app, !zlen_map, !zlen_zrange; rewrite ?zlen_app; lia.
    - intros i Ri. rewrite zlen_zrange in Ri by (rewrite !zlen_app; lia). rewrite !zlen_app in Ri. rewrite zget_zrange by (rewrite !zlen_app; lia).
      destruct (Z_lt_le_dec i (zlen pre)).
      + rewrite zget_app_l by (rewrite zlen_map, zlen_zrange; lia). rewrite zget_map, zget_zrange by lia. cbn. f_equal; lia.
      + rewrite zget_app_r by (rewrite zlen_map, zlen_zrange; lia). rewrite zlen_map, zlen_zrange by lia. destruct (Z_lt_le_dec (i - zlen pre) (zlen mid)).
        * rewrite zget_app_l by (rewrite zlen_map, zlen_zrange; lia). rewrite zget_map, zget_zrange by lia. cbn. f_equal; lia.
        * rewrite zget_app_r by (rewrite zlen_map, zlen_zrange; lia). rewrite zlen_map, zlen_zrange by lia. rewrite zget_map, zget_zrange by lia. cbn. f_equal; lia. }
  rewrite Ez, !filter_app.
  rewrite (F pre 0 _ false), (F mid (zlen pre) _ true), (F post (zlen pre + zlen mid) _ false); [rewrite app_nil_r; reflexivity| | |].
  - intros j Rj. pose proof (zlen_nonneg pre). pose proof (zlen_nonneg mid). rewrite zget_app_r by lia. rewrite zget_app_r by lia.
    destruct (zget_in_range post (zlen pre + zlen mid + j - zlen pre - zlen mid) ltac:(lia)) as (x & G). rewrite G. apply H3. eapply zget_In. exact G.
  - intros j Rj. pose proof (zlen_nonneg pre). rewrite zget_app_r by lia. rewrite zget_app_l by lia.
    destruct (zget_in_range mid (zlen pre + j - zlen pre) ltac:(lia)) as (x & G). rewrite G. apply H2. eapply zget_In. exact G.
  - intros j Rj. rewrite zget_app_l by lia. destruct (zget_in_range pre (0 + j) ltac:(lia)) as (x & G). rewrite G. apply H1. eapply zget_In. exact G.
Qed.

Lemma states_to_scs_at states s2 : form_states_to_state_configs (form_state_configs states) states = Ok s2 -> zlen s2 = zlen states /\ forall k s l, zget states k = Ok s -> zget s2 k = Ok l -> zlen l = zlen (configs s) /\ forall j i, zget l j = Ok i -> zget (form_state_configs states) i = Ok (k, j).
Proof.
  intros E. apply states_to_scs in E as [Ll H]. split; [exact Ll|]. intros k s l Gs Gl.
  rewrite H in Gl by (apply zget_bounds in Gs; exact Gs). injection Gl as <-.
  pose proof (zget_bounds _ _ _ Gs) as B. apply zget_ok in Gs as [_ Gs]. apply nth_error_split in Gs as (st1 & st2 & -> & L1).
  rewrite form_state_configs_eq. destruct (scs_from_split st1 0 s st2) as (pre & post & Es & P1 & P2). rewrite Es.
  assert (0 + zlen st1 = k) as Ek by (unfold zlen; lia). rewrite Ek in *. pose proof (zlen_nonneg (configs s)) as Nn. pose proof (zlen_nonneg pre) as Np.
  set (mid := map (fun j => (k, j)) (zrange (zlen (configs s)))) in *.
  assert (zlen mid = zlen (configs s)) as Lm by (unfold mid; rewrite zlen_map, zlen_zrange; lia).
  rewrite (filter_positions (fun sc => fst sc =? k)).
  - rewrite Lm. split; [rewrite zlen_map, zlen_zrange; lia|]. intros j i G. rewrite zget_map in G.
    assert (0 <= j < zlen (configs s)) as Rj.
    { destruct (zget (zrange (zlen (configs s))) j) eqn:Ez; try discriminate. apply zget_bounds in Ez. rewrite zlen_zrange in Ez by lia. exact Ez. }
    rewrite zget_zrange in G by lia. cbn [bind] in G. injection G as <-. rewrite zget_app_r by lia. rewrite zget_app_l by lia. replace (zlen pre + j - zlen pre) with j by lia.
    unfold mid. rewrite zget_map, zget_zrange by lia. reflexivity.
  - intros x I. apply P1 in I. apply Z.eqb_neq. lia.
  - intros x I. apply in_map_iff in I as (j & <- & _). apply Z.eqb_refl.
  - intros x I. apply P2 in I. apply Z.eqb_neq. lia.
Qed.

(* ------------------------------------------------------------------ *)
Lemma iterate_partial {S R} (body : S -> res (S + R)) (Inv : S -> Prop) (Post : R -> Prop) :
  (forall s s', Inv s -> body s = Ok (inl s') -> Inv s') -> (forall s r, Inv s -> body s = Ok (inr r) -> Post r) ->
  forall k s, Inv s -> match iterate k body s with Ok (inl s') => Inv s' | Ok (inr r) => Post r | _ => True end.
Proof.
  intros H1 H2. induction k as [|k IH]; intros s I; cbn [iterate].
  - destruct (body s) as [[s'|r]| |] eqn:E; eauto.
  - specialize (IH s I) as X. destruct (iterate k body s) as [[s'|r]| |]; cbn [bind]; auto. apply IH. exact X.
Qed.

Section Lanes.
Variable g : grammar.
Hypothesis A : augmented g.
Variable cs : list config.
Variable states : list state_in_progress.
Let scs := form_state_configs states.
Variable s2 : list (list Z).
Hypothesis S2 : form_states_to_state_configs scs states = Ok s2.
Variable first_sets : list (list Z).

(** number i is a configuration of the accept production *)
Definition accepting (i : Z) : Prop := exists sc s ci d, zget scs i = Ok sc /\ zget states (fst sc) = Ok s /\ zget (configs s) (snd sc) = Ok ci /\
  zget cs ci = Ok (zlen (productions g) - 1, d).
Definition kept (cx : list (list Z)) (cp : list bool) : Prop := forall i, accepting i -> zget cx i = Ok [nterminals g - 1] /\ zget cp i = Ok true.
Definition others (l : list Z) : Prop := forall i, In i l -> ~ accepting i.
Definition traced (t : tracing) : Prop := kept (contexts t) (complete t) /\ others (stack t) /\ others (lane t).

Lemma accepting_pos i : accepting i -> 0 <= i.
Proof. intros (sc & _ & _ & _ & G & _). apply zget_bounds in G. lia. Qed.
Lemma vset_get {X} (l : list X) i v l' : vset l i v = Ok l' -> zget l' i = Ok v /\ forall j, j <> i -> zget l' j = zget l j.
Proof.
  unfold vset. intros E. apply bind_ok in E as (u & _ & E). split; [eapply zset_get_eq; exact E|]. intros j N. eapply zset_get_ne; [exact E | congruence].
Qed.
Lemma kept_context cx cp i v cx' : kept cx cp -> ~ accepting i -> vset cx i v = Ok cx' -> kept cx' cp.
Proof.
  intros K N E j Aj. destruct (vset_get _ _ _ _ E) as [_ O]. rewrite O by congruence. apply K. exact Aj.
Qed.
Lemma kept_complete cx cp i cp' : kept cx cp -> vset cp i true = Ok cp' -> kept cx cp'.
Proof.
  intros K E j Aj. destruct (vset_get _ _ _ _ E) as [G O]. split; [apply K; exact Aj|]. destruct (Z.eq_dec j i) as [->|N]; [exact G|]. rewrite O by exact N. apply K. exact Aj.
Qed.
Lemma others_incl l m : others l -> (forall x, In x m -> In x l \/ x < 0) -> others m.
Proof. intros O H x I Ax. destruct (H x I) as [I'|N]; [exact (O x I' Ax)|]. apply accepting_pos in Ax. lia. Qed.
Lemma vget_In {X} (l : list X) i v : vget l i = Ok v -> In v l.
Proof. intros E. apply vget_ok in E. eapply zget_In. exact E. Qed.

Lemma adding_kept ln : others ln -> forall positions gen cx cp cx', kept cx cp -> add_contexts positions ln gen cx = Ok cx' -> kept cx' cp.
Proof.
  intros O. induction positions as [|r positions IH]; intros gen cx cp cx' K E; cbn [add_contexts] in E; [injection E as <-; exact K|].
  destruct gen as [|x gen]; [injection E as <-; exact K|]. apply bind_ok in E as (v & Gv & E). destruct (v <? 0); [eapply IH; eassumption|].
  apply bind_ok in E as (c & Gc & E). apply bind_ok in E as (cx1 & E1 & E). eapply IH; [|exact E]. eapply kept_context; [exact K| |exact E1].
  apply O. eapply vget_In. exact Gv.
Qed.

Lemma markers_incl ln z zp tf ln' : move_markers ln z zp tf = Ok ln' -> forall x, In x ln' -> In x ln \/ x < 0.
Proof.
  unfold move_markers. destruct (find_in z ln) as [loc|] eqn:Ef; [|discriminate]. intros E. apply bind_ok in E as ([l r] & E1 & E).
  set (I := fun (d : list Z) (lr : list Z * Z) => fst lr <> [] /\ forall x : Z, In x (fst lr) -> In x ln \/ x < 0).
  assert (I (zfromto (loc + 1) zp) (l, r)) as [Nl Hl].
  { apply (foldM_partial _ I) with (don := []) in E1; [exact E1| |].
    - intros don i [l0 r0] [l1 r1] [N0 H0] E0. cbn [fst] in N0, H0. apply bind_ok in E0 as (v & _ & E0). destruct (v =? MARKER); [|injection E0 as <- <-; split; assumption].
      apply bind_ok in E0 as (l2 & E2 & E0). injection E0 as <- <-. unfold vset in E2. apply bind_ok in E2 as (u & _ & E2). unfold I. cbn [fst]. split.
      + intros ->. apply zset_zlen in E2. destruct l0; [congruence|]. rewrite zlen_cons in E2. pose proof (zlen_nonneg l0). change (zlen (@nil Z)) with 0 in E2. lia.
      + intros x Ix. apply In_nth_error in Ix as (k & Hk). apply zget_nat in Hk. destruct (Z.eq_dec i (Z.of_nat k)) as [->|N].
        * rewrite (zset_get_eq _ _ _ _ E2) in Hk. injection Hk as <-. right. reflexivity.
        * rewrite (zset_get_ne _ _ _ _ _ E2 N) in Hk. apply H0. eapply zget_In. exact Hk.
    - unfold I. cbn [fst]. split; [intros ->; discriminate | auto]. }
  cbn [fst] in Nl, Hl.
  assert (forall x, In x (repeat MARKER (Z.to_nat r)) -> x < 0) as Hm by (intros x Ix; apply repeat_spec in Ix; subst x; reflexivity).
  injection E as <-. intros x. destruct tf; rewrite ?in_app_iff.
  - rewrite (app_removelast_last 0 Nl) in Hl. intros [Ix|[Ix|[<-|[]]]]; [apply Hl; apply in_or_app; left; exact Ix | right; auto | apply Hl; apply in_or_app; right; left; reflexivity].
  - intros [Ix|Ix]; [auto | right; auto].
Qed.

Lemma others_cons a l : ~ accepting a -> others l -> others (a :: l).
Proof. intros Na O x [<-|I]; auto. Qed.
Lemma others_app l m : others l -> others m -> others (l ++ m).
Proof. intros O1 O2 x I. apply in_app_or in I as [I|I]; auto. Qed.
Lemma others_removelast l : others l -> others (removelast l).
Proof.
  intros O. destruct l as [|a l]; [exact O|]. assert (a :: l <> []) as N by discriminate. rewrite (app_removelast_last 0 N) in O. intros x I. apply O. apply in_or_app. left. exact I.
Qed.
Lemma not_accepting_neg i : i < 0 -> ~ accepting i.
Proof. intros L Ai. apply accepting_pos in Ai. lia. Qed.
Lemma others_nil : others [].
Proof. intros x []. Qed.

Lemma failed_traced z z' t t' : traced t -> ~ accepting z' -> deal_with_tests_failed z z' t = Ok t' -> traced t'.
Proof.
  intros (K & O1 & O2) N E. unfold deal_with_tests_failed in E. destruct (num_originators_failed t =? 0).
  - apply bind_ok in E as (il & _ & E). injection E as <-. split; [exact K|]. split; [exact O1|]. cbn [lane].
    apply others_app; [exact O2|]. apply others_cons; [exact N | apply others_nil].
  - destruct (num_originators_failed t =? 1).
    + apply bind_ok in E as (top & Gt & E). apply bind_ok in E as (u & C & E). apply bind_ok in E as (b & _ & E). apply bind_ok in E as (u' & _ & E). injection E as <-.
      apply check_ok in C. apply Z.eqb_eq in C. apply vget_In in Gt. rewrite C in Gt.
      split; [exact K|]. cbn [stack lane]. split.
      * apply others_cons; [exact N|]. apply others_cons; [apply not_accepting_neg; reflexivity | exact O1].
      * apply others_app; [apply others_removelast; exact O2|]. apply others_cons; [apply not_accepting_neg; reflexivity|]. apply others_cons; [apply O2; exact Gt | apply others_nil].
    + injection E as <-. split; [exact K|]. cbn [stack lane]. split; [apply others_cons; assumption | exact O2].
Qed.

Lemma accept_lhs i q : zget (productions g) i = Ok q -> lhs q = nsymbols g - 1 -> i = zlen (productions g) - 1.
Proof.
  intros G El. destruct (aug_accept g A) as (ps & goal & Ep & _ & Hp). rewrite Ep in *. rewrite zlen_snoc. pose proof (zget_bounds _ _ _ G) as B. rewrite zlen_snoc in B.
  destruct (Z.eq_dec i (zlen ps)); [lia|]. exfalso. rewrite zget_app_l in G by lia. apply (Hp q); [eapply zget_In; exact G | exact El].
Qed.
Lemma accept_prod q : zget (productions g) (zlen (productions g) - 1) = Ok q -> lhs q = nsymbols g - 1.
Proof.
  intros G. destruct (aug_accept g A) as (ps & goal & Ep & _ & Hp). rewrite Ep in G. rewrite zlen_snoc in G. replace (zlen ps + 1 - 1) with (zlen ps) in G by lia.
  rewrite zget_app_last in G. injection G as <-. reflexivity.
Qed.

Lemma propagation_traced tau t t' : traced t -> ~ accepting tau -> heuristic_propagation g cs states scs s2 tau t = Ok t' -> traced t' /\ lane t' = lane t.
Proof.
  intros T Na E. unfold heuristic_propagation in E. apply bind_ok in E as ([si ji] & G1 & E). apply bind_ok in E as (s & G2 & E).
  apply bind_ok in E as (ci & G3 & E). apply bind_ok in E as ([pi di] & G4 & E). cbn [fst snd] in *. apply vget_ok in G1, G2, G3, G4.
  destruct (negb (di =? 0)); [injection E as <-; auto|]. apply bind_ok in E as (q & G5 & E). apply vget_ok in G5. unfold forM in E.
  set (I := fun (d : list Z) t' => traced t' /\ lane t' = lane t).
  apply (foldM_partial _ I) with (don := []) in E; [exact E| |split; [exact T | reflexivity]].
  intros don j t0 t1 [T0 L0] E0. apply bind_ok in E0 as (cj & H1 & E0). destruct (cj =? ci); [injection E0 as <-; split; assumption|].
  apply bind_ok in E0 as ([pj dj] & H2 & E0). cbn [fst snd] in *. destruct (negb (dj =? 0)); [injection E0 as <-; split; assumption|].
  apply bind_ok in E0 as (q2 & H3 & E0). destruct (Z.eqb_spec (lhs q) (lhs q2)) as [El|]; cbn [negb] in E0; [|injection E0 as <-; split; assumption].
  apply bind_ok in E0 as (tp & H4 & E0). apply bind_ok in E0 as (c & H5 & E0). apply bind_ok in E0 as (cx & H6 & E0). apply bind_ok in E0 as (cp & H7 & E0). injection E0 as <-.
  apply vget_ok in H1, H2, H3. unfold cell_get in H4. apply bind_ok in H4 as (l & H4 & H8). apply vget_ok in H4, H8.
  destruct (states_to_scs_at states s2 S2) as [_ SS]. destruct (SS si s l G2 H4) as [_ SS']. specialize (SS' _ _ H8). fold scs in SS'.
  assert (~ accepting tp) as Ntp.
  { intros (sc & s' & cj' & d & A1 & A2 & A3 & A4). rewrite SS' in A1. injection A1 as <-. cbn [fst snd] in *. rewrite G2 in A2. injection A2 as <-.
    rewrite H1 in A3. injection A3 as <-. rewrite H2 in A4. injection A4 as -> ->. apply accept_prod in H3. rewrite H3 in El. apply (accept_lhs _ _ G5) in El. subst pi.
    apply Na. exists (si, ji), s, ci, di. auto. }
  destruct T0 as (K & O1 & O2). split; [|exact L0]. split; [|split; assumption]. cbn [contexts complete]. eapply kept_complete; [|exact H7]. eapply kept_context; eassumption.
Qed.

Lemma originator_traced z zp t z' t' : traced t -> one_originator g cs states scs first_sets z zp t z' = Ok t' -> traced t'.
Proof.
  intros T E. unfold one_originator in E. apply bind_ok in E as (gam & _ & E). apply bind_ok in E as (gf & _ & E). apply bind_ok in E as (done & Gd & E). apply vget_ok in Gd.
  pose proof T as (K & O1 & O2). assert (done = false -> ~ accepting z') as Nz by (intros -> Az; apply K in Az as [_ Az]; congruence).
  assert (forall ps gen cx, add_contexts ps (lane t) gen (contexts t) = Ok cx -> traced (with_contexts t cx)) as Adding.
  { intros ps gen cx Ex. split; [|split; assumption]. cbn [contexts complete with_contexts]. eapply adding_kept; [exact O2 | exact K | exact Ex]. }
  destruct (has_non_null_terminal_descendant gf).
  - destruct (set_count FIRST_NULL gf).
    + destruct done.
      * apply bind_ok in E as (c & _ & E). apply bind_ok in E as (cx & Ex & E). injection E as <-. eapply Adding. exact Ex.
      * apply bind_ok in E as (il & _ & E). destruct il; [discriminate|]. apply bind_ok in E as (cx & Ex & E). eapply failed_traced; [|apply Nz; reflexivity | exact E]. eapply Adding. exact Ex.
    + apply bind_ok in E as (cx & Ex & E). injection E as <-. eapply Adding. exact Ex.
  - destruct done.
    + apply bind_ok in E as (c & _ & E). apply bind_ok in E as (cx & Ex & E). injection E as <-. eapply Adding. exact Ex.
    + apply bind_ok in E as (il & _ & E). destruct il; [|eapply failed_traced; [exact T | apply Nz; reflexivity | exact E]].
      apply bind_ok in E as (ln & El & E). apply bind_ok in E as (c & _ & E). apply bind_ok in E as (cx & Ex & E). injection E as <-.
      assert (others ln) as Ol by (eapply others_incl; [exact O2 | eapply markers_incl; exact El]).
      split; [|split; [exact O1 | exact Ol]]. cbn [contexts complete with_contexts with_lane]. eapply adding_kept; [exact Ol | exact K | exact Ex].
Qed.

Lemma pop_stack_others cp : forall st st' push, others st -> pop_stack cp st = Ok (st', push) -> others st' /\ forall a, push = Some a -> ~ accepting a.
Proof.
  induction st as [|top st IH]; intros st' push O E; cbn [pop_stack] in E; [discriminate|].
  assert (others st) as O' by (intros x I; apply O; right; exact I).
  destruct (top =? MARKER); [injection E as <- <-; split; [exact O' | discriminate]|]. apply bind_ok in E as (d & _ & E). destruct d; [apply IH; assumption|].
  injection E as <- <-. split; [exact O'|]. intros a Ea. injection Ea as <-. apply O. left. reflexivity.
Qed.

Lemma pop_lane_traced zj : forall fuel t t' b, traced t -> pop_lane g cs states scs s2 fuel zj t = Ok (t', b) -> traced t'.
Proof.
  induction fuel as [|fuel IH]; intros t t' b T E; cbn [pop_lane] in E; [discriminate|]. pose proof T as (K & O1 & O2).
  apply bind_ok in E as (top & Gt & E). apply vget_In in Gt. destruct (top =? MARKER).
  - apply bind_ok in E as ([st push] & Ep & E). destruct (pop_stack_others _ _ _ _ O1 Ep) as [Os Np]. destruct push as [a|].
    + apply bind_ok in E as (il & _ & E). injection E as <- <-. split; [exact K|]. split; [exact Os|]. cbn [lane]. apply others_app; [exact O2|]. apply others_cons; [apply Np; reflexivity | apply others_nil].
    + eapply IH; [|exact E]. split; [exact K|]. split; [exact Os|]. cbn [lane]. apply others_removelast. exact O2.
  - destruct (top =? ZERO).
    + eapply IH; [|exact E]. split; [exact K|]. split; [exact O1|]. cbn [lane with_lane]. apply others_removelast. exact O2.
    + apply bind_ok in E as (il & _ & E). apply bind_ok in E as (cp & Ec & E). apply bind_ok in E as (t1 & E1 & E).
      apply propagation_traced in E1 as [T1 L1]; [| |apply O2; exact Gt].
      2:{ split; [|split; assumption]. cbn [contexts complete]. eapply kept_complete; [exact K | exact Ec]. }
      destruct (_ && _); [injection E as <- <-; exact T1|]. eapply IH; [|exact E]. destruct T1 as (K1 & P1 & P2). split; [exact K1|]. split; [exact P1|].
      cbn [lane with_lane]. apply others_removelast. exact P2.
Qed.

Lemma turn_traced og zj t : traced t -> match trace_turn g cs states scs s2 first_sets og zj t with
  | Ok (inl t') => traced t' | Ok (inr (cx, cp)) => kept cx cp | _ => True end.
Proof.
  intros T. destruct (trace_turn _ _ _ _ _ _ _ _ t) as [r| |] eqn:E; auto. unfold trace_turn in E.
  apply bind_ok in E as (u & _ & E). apply bind_ok in E as (z & _ & E). apply bind_ok in E as (os & _ & E). apply bind_ok in E as (t1 & E1 & E).
  assert (traced t1) as T1.
  { set (J := fun (_ : list Z) => traced). apply (foldM_partial _ J) with (don := []) in E1; [exact E1| |destruct T as (K & O1 & O2); split; [exact K | split; assumption]].
    intros don z' t0 t2 T0 E0. eapply originator_traced; eassumption. }
  destruct (tests_failed t1).
  - injection E as <-. destruct T1 as (K & O1 & O2). split; [exact K | split; assumption].
  - apply bind_ok in E as ([t2 e] & E2 & E). apply pop_lane_traced in E2; [|exact T1]. injection E as <-. destruct e; [apply E2 | exact E2].
Qed.

Lemma context_set_kept fuel og cx cp zj cx' cp' : kept cx cp -> compute_context_set g cs states scs s2 first_sets fuel og (cx, cp) zj = Ok (cx', cp') -> kept cx' cp'.
Proof.
  intros K E. unfold compute_context_set in E. apply bind_ok in E as (done & Gd & E). apply vget_ok in Gd. destruct done; [injection E as <- <-; exact K|].
  apply bind_ok in E as (il & _ & E).
  pose proof (iterate_partial (trace_turn g cs states scs s2 first_sets og zj) traced (fun '(cx, cp) => kept cx cp)) as X.
  specialize (X (fun s s' I H => ltac:(pose proof (turn_traced og zj s I) as Y; rewrite H in Y; exact Y))
                (fun s r I H => ltac:(pose proof (turn_traced og zj s I) as Y; rewrite H in Y; exact Y)) fuel (mk_tracing cx cp [] [zj] il false 0 (-1))).
  destruct (iterate fuel _ _) as [[s'|r]| |]; cbn [finish bind] in E; try discriminate. injection E as ->. apply X. split; [exact K|]. split; [apply others_nil|].
  cbn [lane]. apply others_cons; [|apply others_nil]. intros Az. apply K in Az as [_ Az]. congruence.
Qed.
End Lanes.

Lemma lane_tracing_sane fuel g : augmented g -> sane_trace (lane_tracing fuel) g.
Proof.
  intros A cs states adequate ctxs E. unfold lane_tracing in E. apply bind_ok in E as (s2 & S2 & E). apply bind_ok in E as ([cx0 cp0] & E0 & E).
  apply bind_ok in E as (og & _ & E). apply bind_ok in E as (fs & _ & E). apply bind_ok in E as ([cx cp] & E1 & E).
  set (scs := form_state_configs states) in *.
  assert (kept g cs states cx0 cp0) as K0.
  { set (I := fun (is : list Z) (cc : list (list Z) * list bool) => forall i, accepting g cs states i ->
      (In i is -> zget (fst cc) i = Ok [nterminals g - 1] /\ zget (snd cc) i = Ok true) /\ (~ In i is -> zget (fst cc) i = Ok [])).
    apply (foldM_partial _ I) with (don := []) in E0.
    - intros i Ai. destruct (E0 i Ai) as [X _]. cbn [fst snd] in X. apply X. cbn [app]. apply in_zrange. destruct Ai as (sc & _ & _ & _ & G & _). apply zget_bounds in G. exact G.
    - intros don k [cx1 cp1] [cx2 cp2] H Ek. unfold I in *. cbn [fst snd] in *. apply bind_ok in Ek as (sc & G1 & Ek). apply bind_ok in Ek as (s & G2 & Ek). apply bind_ok in Ek as (ci & G3 & Ek).
      apply bind_ok in Ek as ([pi di] & G4 & Ek). apply vget_ok in G1, G2, G3, G4. cbn [fst] in Ek.
      intros i Ai. destruct (H i Ai) as [H1 H2]. destruct (Z.eqb_spec pi (get_accept_production g)) as [->|Np].
      + apply bind_ok in Ek as (cp' & Ec & Ek). apply bind_ok in Ek as (c & Gc & Ek). apply bind_ok in Ek as (cx' & Ex & Ek). injection Ek as <- <-. apply vget_ok in Gc.
        destruct (vset_get _ _ _ _ Ec) as [Y1 Y2]. destruct (vset_get _ _ _ _ Ex) as [Z1 Z2]. rewrite in_app_iff. destruct (Z.eq_dec i k) as [->|Ni].
        * split; [|intros N; exfalso; apply N; right; left; reflexivity]. intros _. split; [|exact Y1]. rewrite Z1. destruct (in_dec Z.eq_dec k don) as [Hk|Hk].
          -- destruct (H1 Hk) as [Gk _]. rewrite Gk in Gc. injection Gc as <-. unfold get_end_terminal. cbn [set_insert]. rewrite Z.ltb_irrefl, Z.eqb_refl. reflexivity.
          -- rewrite (H2 Hk) in Gc. injection Gc as <-. reflexivity.
        * rewrite Y2, Z2 by exact Ni. split; [intros [Hi|[Hi|[]]]; [auto | congruence]|]. intros N. apply H2. intros Hi. apply N. left. exact Hi.
      + injection Ek as <- <-. rewrite in_app_iff. split; [|intros N; apply H2; intros Hi; apply N; left; exact Hi]. intros [Hi|[<-|[]]]; [auto|]. exfalso.
        destruct Ai as (sc' & s' & ci' & d' & A1 & A2 & A3 & A4). fold scs in A1. rewrite A1 in G1. injection G1 as <-. rewrite A2 in G2. injection G2 as <-.
        rewrite A3 in G3. injection G3 as <-. rewrite A4 in G4. injection G4 as <- <-. apply Np. reflexivity.
    - intros i Ai. cbn [fst]. split; [intros []|]. intros _. destruct Ai as (sc & _ & _ & _ & G & _). apply zget_bounds in G. fold scs in G.
      destruct (zget_in_range (repeat (@nil Z) (length scs)) i) as (e & Ge); [unfold zlen in *; rewrite repeat_length; lia|]. rewrite Ge. apply zget_In in Ge. apply repeat_spec in Ge. congruence. }
  assert (kept g cs states cx cp) as K.
  { set (J := fun (_ : list Z) (cc : list (list Z) * list bool) => kept g cs states (fst cc) (snd cc)).
    apply (foldM_partial _ J) with (don := []) in E1; [exact E1| |exact K0].
    intros don k cc1 cc2 H Ek. apply bind_ok in Ek as (a & _ & Ek). destruct a; [injection Ek as <-; exact H|]. apply bind_ok in Ek as (s & _ & Ek).
    apply (foldM_partial _ J) with (don := []) in Ek; [exact Ek| |exact H].
    intros don' j [cx1 cp1] [cx2 cp2] H' Ej. apply bind_ok in Ej as (ci & _ & Ej). apply bind_ok in Ej as (cf & _ & Ej). apply bind_ok in Ej as (q & _ & Ej).
    destruct (negb _); [injection Ej as <- <-; exact H'|]. apply bind_ok in Ej as (zj & _ & Ej). unfold J in *. cbn [fst snd] in *. eapply context_set_kept; [exact A | exact S2 | exact H' | exact Ej]. }
  destruct (states_to_scs_at states s2 S2) as [L2 SS].
  assert (length states = length ctxs) as Ln by (apply mapM_length in E; unfold zlen in L2; lia).
  pose proof E as Em. apply mapM_ok in Em.
  apply Forall2_by_nth; [exact Ln|]. intros k s l Gs Gl. apply zget_nat in Gs.
  destruct (Forall2_get _ _ _ _ _ Em (zget_nat _ _ _ Gl)) as (is & Gi & Ei). destruct (SS _ _ _ Gs Gi) as [Li Hi].
  apply Forall2_by_nth; [apply mapM_length in Ei; unfold zlen in Li; lia|].
  intros j ci c Gc Gj. apply mapM_ok in Ei. destruct (Forall2_get _ _ _ _ _ Ei (zget_nat _ _ _ Gj)) as (i & Gij & E2).
  specialize (Hi _ _ Gij). apply zget_nat in Gc. intros k' d -> Hcs.
  assert (accepting g cs states i) as Ai by (exists (Z.of_nat k, Z.of_nat j), s, ci, d; auto).
  destruct (K i Ai) as [K1 K2]. rewrite (proj2 (vget_ok _ _ _) K2) in E2. cbn [bind] in E2. rewrite (proj2 (vget_ok _ _ _) K1) in E2. cbn [bind] in E2. congruence.
Qed.
