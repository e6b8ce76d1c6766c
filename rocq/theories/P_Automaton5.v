(** The powerset construction. *)
From Verif Require Import Prelude M_Automaton S_Automaton P_Automaton P_Automaton2 P_Automaton3.
Local Open Scope Z_scope.

(* ------------------------------------------------------------------ *)
(** Sets as strictly increasing lists *)

Definition ordered (l : list Z) : Prop := StronglySorted Z.lt l.

Lemma set_insert_In x y l : In y (set_insert x l) <-> y = x \/ In y l.
Proof.
  induction l as [|z l IH]; cbn [set_insert].
  - cbn. intuition.
  - destruct (Z.ltb_spec x z); [cbn; intuition|]. destruct (Z.eqb_spec x z) as [->|]; cbn [In].
    + intuition.
    + rewrite IH. intuition.
Qed.

Lemma set_insert_ordered x l : ordered l -> ordered (set_insert x l).
Proof.
  unfold ordered. induction 1 as [|z l O IH F]; cbn [set_insert].
  - repeat constructor.
  - destruct (Z.ltb_spec x z).
    + constructor; [constructor; assumption|]. constructor; [assumption|]. eapply Forall_impl; [|exact F]. intros; lia.
    + destruct (Z.eqb_spec x z) as [->|]; [constructor; assumption|].
      constructor; [exact IH|]. apply Forall_forall. intros y Hy. apply set_insert_In in Hy as [->|Hy]; [lia|].
      rewrite Forall_forall in F. auto.
Qed.

Lemma set_insert_length x l : ~ In x l -> length (set_insert x l) = S (length l).
Proof.
  induction l as [|z l IH]; intros N; cbn [set_insert]; [reflexivity|].
  destruct (Z.ltb_spec x z); [reflexivity|]. destruct (Z.eqb_spec x z) as [->|]; [cbn in N; tauto|].
  cbn. rewrite IH; [reflexivity | cbn in N; tauto].
Qed.

Lemma ordered_NoDup l : ordered l -> NoDup l.
Proof.
  induction 1 as [|z l O IH F]; constructor; [|exact IH]. rewrite Forall_forall in F. intros X. specialize (F z X). lia.
Qed.

Fixpoint subsets (l : list Z) : list (list Z) :=
  match l with [] => [[]] | x :: t => map (cons x) (subsets t) ++ subsets t end.

Lemma subsets_length l : length (subsets l) = (2 ^ length l)%nat.
Proof. induction l as [|x t IH]; [reflexivity|]. cbn [subsets length Nat.pow]. rewrite app_length, map_length, IH. lia. Qed.

Lemma subsets_In l : ordered l -> forall s, ordered s -> (forall x, In x s -> In x l) -> In s (subsets l).
Proof.
  induction 1 as [|z l O IH F]; intros s Os I.
  - destruct s as [|x s]; [left; reflexivity|]. exfalso. apply (I x). left; reflexivity.
  - rewrite Forall_forall in F. cbn [subsets]. apply in_or_app. destruct Os as [|x s Os Fs].
    + right. apply IH; [constructor | intros x []].
    + rewrite Forall_forall in Fs. destruct (I x (or_introl eq_refl)) as [<-|Hx].
      * left. apply in_map. apply IH; [exact Os|]. intros y Hy. destruct (I y (or_intror Hy)) as [<-|]; [|assumption].
        specialize (Fs _ Hy). lia.
      * right. apply IH; [constructor; [exact Os | apply Forall_forall; exact Fs]|].
        intros y [<-|Hy]; [exact Hx|]. destruct (I y (or_intror Hy)) as [<-|]; [|assumption].
        specialize (Fs _ Hy). specialize (F _ Hx). lia.
Qed.

Lemma zrange_ordered n : ordered (zrange n).
Proof.
  unfold ordered, zrange. generalize 0%nat. induction (Z.to_nat n) as [|m IH]; intros s; cbn; constructor; [apply IH|].
  apply Forall_forall. intros x Hx. apply in_map_iff in Hx as (y & <- & Hy). apply in_seq in Hy. lia.
Qed.

Definition within (n : Z) (l : list Z) : Prop := forall x, In x l -> 0 <= x < n.

Lemma ordered_within_length n l : 0 <= n -> ordered l -> within n l -> (length l <= Z.to_nat n)%nat.
Proof.
  intros Hn O W. rewrite <- (zrange_length n). apply NoDup_incl_length; [apply ordered_NoDup; exact O|].
  intros x Hx. apply in_zrange. auto.
Qed.

Lemma count_sets n L : NoDup L -> (forall s, In s L -> ordered s /\ within n s) -> (length L <= 2 ^ Z.to_nat n)%nat.
Proof.
  intros N H. rewrite <- (zrange_length n) , <- subsets_length. apply NoDup_incl_length; [exact N|].
  intros s Hs. destruct (H s Hs) as [O W]. apply subsets_In; [apply zrange_ordered | exact O|].
  intros x Hx. apply in_zrange. auto.
Qed.

(* ------------------------------------------------------------------ *)
(** Stepping a set and closing it under silent moves *)

Section Nfa.
Variable nfa : automaton.
Hypothesis W : well_formed nfa.
Hypothesis Nd : is_deterministic nfa = false.
Let n := zlen (table nfa).
Let k := get_nsymbols nfa.

Local Lemma Hk : 0 <= k.
Proof. destruct (well_formed_good nfa W) as (_ & X & _). exact X. Qed.
Local Lemma Hn : 0 < n.
Proof. destruct (well_formed_good nfa W) as (X & _). exact X. Qed.
Local Lemma Hnc : ncols nfa = k + 2.
Proof. pose proof (sh_nc _ _ _ _ _ _ (well_formed_shape nfa W)) as X. rewrite Nd in X. exact X. Qed.

Local Lemma step_ok s c : 0 <= s < n -> 0 <= c < k + 2 -> step nfa s c = Ok (cell nfa s c).
Proof.
  intros Rs Rc. apply (shape_step _ _ _ _ _ _ s c (well_formed_shape nfa W) Rs). rewrite Nd. exact Rc.
Qed.

Lemma step_set_ok ss x : within n ss -> 0 <= x < k ->
  exists out, step_set ss x nfa = Ok out /\ ordered out /\ within n out /\
  (forall t, In t out <-> exists s, In s ss /\ edge nfa s (Some x) t).
Proof.
  intros R Rx. unfold step_set.
  assert (forall acc0, ordered acc0 -> within n acc0 ->
    exists out, foldM (fun next_ss state => next_state <- step nfa state x ;;
       Ok (if next_state =? -1 then next_ss else set_insert next_state next_ss)) ss acc0 = Ok out /\
    ordered out /\ within n out /\ (forall t, In t out <-> In t acc0 \/ exists s, In s ss /\ edge nfa s (Some x) t)) as X.
  { induction ss as [|s ss IH]; intros acc0 O A.
    - exists acc0. split; [reflexivity|]. split; [exact O|]. split; [exact A|]. intros t. split; [auto|]. intros [?|(s & [] & _)]; assumption.
    - cbn [foldM]. rewrite step_ok by (try (apply R; left; reflexivity); lia). cbn [bind].
      assert (within n ss) as R' by (intros y Hy; apply R; right; exact Hy).
      pose proof (cell_range nfa s x W) as C. fold n in C.
      destruct (Z.eqb_spec (cell nfa s x) (-1)) as [E|E].
      + destruct (IH R' acc0 O A) as (out & E1 & O1 & W1 & I1). exists out. split; [exact E1|]. split; [exact O1|]. split; [exact W1|].
        intros t. rewrite I1. split.
        * intros [?|(s' & Hs & He)]; [auto|]. right. exists s'. split; [right; exact Hs | exact He].
        * intros [?|(s' & [<-|Hs] & He)]; [auto| |right; eauto]. exfalso. destruct He as (Ne & _ & He). congruence.
      + destruct (IH R' (set_insert (cell nfa s x) acc0)) as (out & E1 & O1 & W1 & I1).
        { apply set_insert_ordered; exact O. }
        { intros y Hy. apply set_insert_In in Hy as [->|Hy]; [lia | auto]. }
        exists out. split; [exact E1|]. split; [exact O1|]. split; [exact W1|].
        intros t. rewrite I1, set_insert_In. split.
        * intros [[->|?]|(s' & Hs & He)]; [|auto|].
          -- right. exists s. split; [left; reflexivity|]. split; [exact E|]. split; [exact Rx | reflexivity].
          -- right. exists s'. split; [right; exact Hs | exact He].
        * intros [?|(s' & [<-|Hs] & He)]; [auto| |right; eauto]. left; left. destruct He as (_ & _ & He). congruence. }
  destruct (X []) as (out & E & O & Wi & I); [constructor | intros ? []|].
  exists out. split; [exact E|]. split; [exact O|]. split; [exact Wi|]. intros t. rewrite I. split; [|auto]. intros [[]|?]; assumption.
Qed.

Definition silent_closed (ss : list Z) : Prop := forall s t, In s ss -> edge nfa s None t -> In t ss.

(** what holds while the closure is computed *)
Record closing (ss0 ss q : list Z) : Prop := {
  cl_ordered : ordered ss;
  cl_within : within n ss;
  cl_queue : forall s, In s q -> In s ss;
  cl_start : forall s, In s ss0 -> In s ss;
  cl_reach : forall s, In s ss -> exists s0, In s0 ss0 /\ epath (edge nfa) s0 [] s }.

Lemma closure_visit_ok ss0 ss q state e :
  closing ss0 ss q -> In state ss -> e = k \/ e = k + 1 ->
  exists ss' q', closure_visit nfa state (ss, q) e = Ok (ss', q') /\ closing ss0 ss' q' /\
  (exists add, q' = q ++ add) /\
  (length ss' + length q = length ss + length q')%nat /\
  (forall s, In s ss -> In s ss') /\
  (forall s, In s ss' -> In s ss \/ In s q') /\
  (cell nfa state e <> -1 -> In (cell nfa state e) ss').
Proof.
  intros [C1 C2 C3 C4 C5] Hs He. unfold closure_visit.
  pose proof Hk as K. rewrite step_ok by (try (apply C2; exact Hs); lia). cbn [bind].
  pose proof (cell_range nfa state e W) as R. fold n in R.
  destruct (Z.eqb_spec (cell nfa state e) (-1)) as [E|E].
  - exists ss, q. split; [reflexivity|]. split; [constructor; assumption|]. split; [exists []; rewrite app_nil_r; reflexivity|].
    split; [lia|]. split; [auto|]. split; [auto|]. congruence.
  - destruct (set_count (cell nfa state e) ss) eqn:Ec.
    + apply set_count_In in Ec. exists ss, q. split; [reflexivity|]. split; [constructor; assumption|].
      split; [exists []; rewrite app_nil_r; reflexivity|]. split; [lia|]. split; [auto|]. split; [auto|]. auto.
    + assert (~ In (cell nfa state e) ss) as Ni by (rewrite <- set_count_In; congruence).
      exists (set_insert (cell nfa state e) ss), (q ++ [cell nfa state e]). split; [reflexivity|]. split; [constructor|].
      * apply set_insert_ordered; exact C1.
      * intros s H. apply set_insert_In in H as [->|H]; [lia | auto].
      * intros s H. apply set_insert_In. apply in_app_or in H as [H|[<-|[]]]; auto.
      * intros s H. apply set_insert_In. auto.
      * intros s H. apply set_insert_In in H as [->|H]; [|auto]. destruct (C5 state Hs) as (s0 & H0 & P). exists s0. split; [exact H0|].
        change (@nil Z) with (@nil Z ++ []). eapply epath_app; [exact P|]. apply (epath_silent _ state (cell nfa state e)); [|constructor].
        split; [exact E|]. fold k. destruct He as [-> | ->]; auto.
      * split; [eexists; reflexivity|]. split; [rewrite set_insert_length, app_length by exact Ni; cbn; lia|].
        split; [intros s H; apply set_insert_In; auto|]. split.
        -- intros s H. apply set_insert_In in H as [->|H]; [right; apply in_or_app; right; left; reflexivity | auto].
        -- intros _. apply set_insert_In. auto.
Qed.

Lemma closure_loop_ok ss0 : forall fuel ss q,
  closing ss0 ss q -> (length q + Z.to_nat n <= fuel + length ss)%nat ->
  (forall s t, In s ss -> ~ In s q -> edge nfa s None t -> In t ss) ->
  exists out, closure_loop fuel nfa k (k + 1) ss q = Ok out /\ ordered out /\ within n out /\ silent_closed out /\
  (forall t, In t out <-> exists s0, In s0 ss0 /\ epath (edge nfa) s0 [] t).
Proof.
  assert (forall ss q, closing ss0 ss q -> silent_closed ss ->
          forall t, In t ss <-> exists s0, In s0 ss0 /\ epath (edge nfa) s0 [] t) as Done.
  { intros ss q [C1 C2 C3 C4 C5] Cl t. split; [apply C5|]. intros (s0 & H0 & P). apply C4 in H0.
    remember [] as w eqn:Ew. induction P as [s|s l t w u He P IH]; [exact H0|].
    destruct l as [x|]; [discriminate|]. cbn in Ew. apply IH; try assumption; eapply Cl; eassumption. }
  induction fuel as [|fuel IH]; intros ss q C F Cl.
  - assert (q = []) as ->.
    { pose proof (ordered_within_length n ss (Z.lt_le_incl _ _ Hn) (cl_ordered _ _ _ C) (cl_within _ _ _ C)). destruct q; [reflexivity | cbn in F; lia]. }
    exists ss. split; [reflexivity|]. split; [apply C|]. split; [apply C|].
    assert (silent_closed ss) as X by (intros s t Hs He; apply (Cl s t Hs); [intros [] | exact He]). split; [exact X|]. eapply Done; eassumption.
  - destruct q as [|state q].
    + exists ss. split; [reflexivity|]. split; [apply C|]. split; [apply C|].
      assert (silent_closed ss) as X by (intros s t Hs He; apply (Cl s t Hs); [intros [] | exact He]). split; [exact X|]. eapply Done; eassumption.
    + cbn [closure_loop]. replace (zfromto k (k + 1 + 1)) with [k; k + 1].
      2:{ rewrite zfromto_cons by lia. rewrite zfromto_cons by lia. rewrite zfromto_nil by lia. reflexivity. }
      cbn [foldM]. assert (In state ss) as Hs by (apply (cl_queue _ _ _ C); left; reflexivity).
      assert (closing ss0 ss q) as C0. { destruct C as [D1 D2 D3 D4 D5]. constructor; auto. intros s H. apply D3. right; exact H. }
      destruct (closure_visit_ok ss0 ss q state k C0 Hs (or_introl eq_refl)) as (ss1 & q1 & -> & C1 & (a1 & Q1) & L1 & I1 & B1 & E1).
      cbn [bind]. destruct (closure_visit_ok ss0 ss1 q1 state (k + 1) C1 (I1 _ Hs) (or_intror eq_refl)) as (ss2 & q2 & -> & C2 & (a2 & Q2) & L2 & I2 & B2 & E2).
      cbn [bind]. apply IH; [exact C2 | cbn [length] in F; lia|].
      intros s t Hs2 Nq He. destruct (B2 s Hs2) as [H1|H1]; [|contradiction].
      assert (~ In s q1) as Nq1 by (intros X; apply Nq; rewrite Q2; apply in_or_app; left; exact X).
      destruct (B1 s H1) as [H2|H2]; [|contradiction].
      destruct (Z.eq_dec s state) as [->|Ne].
      * destruct He as [Nt [He|He]]; fold k in He.
        -- rewrite <- He. apply I2. apply E1. congruence.
        -- rewrite <- He. apply E2. congruence.
      * apply I2, I1. eapply Cl; [exact H2| |exact He]. intros [X|X]; [congruence|]. apply Nq1. rewrite Q1. apply in_or_app; left; exact X.
Qed.

Lemma closure_ok ss : ordered ss -> within n ss ->
  exists out, get_epsilon_closure ss nfa = Ok out /\ ordered out /\ within n out /\ silent_closed out /\
  (forall t, In t out <-> exists s0, In s0 ss /\ epath (edge nfa) s0 [] t).
Proof.
  intros O R. unfold get_epsilon_closure, get_epsilon0, get_epsilon1. rewrite Nd, Hnc. cbn [negb check bind].
  replace (k + 2 - 2) with k by lia. replace (k + 2 - 1) with (k + 1) by lia. apply closure_loop_ok.
  - constructor; auto. intros s Hs. exists s. split; [exact Hs | constructor].
  - unfold n, zlen. rewrite Nat2Z.id. lia.
  - intros s t H1 H2. contradiction.
Qed.

(* ------------------------------------------------------------------ *)
(** the least token *)


Lemma min_accepted_ok ss : within n ss ->
  exists m, min_accepted nfa ss = Ok m /\ -1 <= m /\
  least (fun tk => tk <> -1 /\ exists s, In s ss /\ tok nfa s = tk) m.
Proof.
  intros R. unfold min_accepted.
  assert (forall m0 (P : Z -> Prop), -1 <= m0 -> least P m0 -> (forall t, P t -> 0 <= t) ->
    exists m, foldM (fun m nfa_state => nfa_token <- accepts nfa nfa_state ;;
        (if nfa_token =? -1 then Ok m else Ok (if (m =? -1) || (nfa_token <? m) then nfa_token else m))) ss m0 = Ok m /\ -1 <= m /\
    least (fun tk => P tk \/ (tk <> -1 /\ exists s, In s ss /\ tok nfa s = tk)) m) as X.
  { induction ss as [|s ss IH]; intros m0 P B L Pos.
    - exists m0. split; [reflexivity|]. split; [exact B|]. destruct L as [[-> L]|[L1 L2]].
      + left. split; [reflexivity|]. intros t [H|(_ & s & [] & _)]. exact (L t H).
      + right. split; [auto|]. intros t [H|(_ & s & [] & _)]. auto.
    - cbn [foldM]. rewrite (shape_accepts _ _ _ _ _ _ s (well_formed_shape nfa W)) by (apply R; left; reflexivity). cbn [bind].
      assert (within n ss) as R' by (intros y Hy; apply R; right; exact Hy).
      pose proof (tok_range nfa s W) as Rt.
      destruct (Z.eqb_spec (tok nfa s) (-1)) as [E|E].
      + cbn [bind]. destruct (IH R' m0 P B L Pos) as (m & E1 & B1 & L1). exists m. split; [exact E1|]. split; [exact B1|].
        destruct L1 as [[-> L1]|[L1 L2]].
        * left. split; [reflexivity|]. intros t [H|(Ht & s' & [<-|Hs] & Es)]; [apply (L1 t); auto | congruence | apply (L1 t); right; eauto].
        * right. split.
          -- destruct L1 as [H|(Ht & s' & Hs & Es)]; [auto|]. right. split; [exact Ht|]. exists s'. split; [right; exact Hs | exact Es].
          -- intros t [H|(Ht & s' & [<-|Hs] & Es)]; [apply L2; auto | congruence | apply L2; right; eauto].
      + cbn [bind].
        destruct (IH R' (if (m0 =? -1) || (tok nfa s <? m0) then tok nfa s else m0) (fun t => P t \/ t = tok nfa s)) as (m & E1 & B1 & L1).
        * destruct ((m0 =? -1) || (tok nfa s <? m0)); lia.
        * right. destruct L as [[-> L]|[L1 L2]].
          -- cbn. split; [auto|]. intros t [H| ->]; [exfalso; exact (L t H) | lia].
          -- pose proof (Pos _ L1). destruct (Z.eqb_spec m0 (-1)); [lia|]. cbn [orb]. destruct (Z.ltb_spec (tok nfa s) m0).
             ++ split; [auto|]. intros t [H1| ->]; [specialize (L2 t H1); lia | lia].
             ++ split; [auto|]. intros t [H1| ->]; [specialize (L2 t H1); lia | lia].
        * intros t [H| ->]; [auto | lia].
        * exists m. split; [exact E1|]. split; [exact B1|].
          destruct L1 as [[-> L1]|[L1 L2]].
          -- exfalso. apply (L1 (tok nfa s)). auto.
          -- right. split.
             ++ destruct L1 as [[H| ->]|(Ht & s' & Hs & Es)]; [auto| |].
                ** right. split; [exact E|]. exists s. split; [left; reflexivity | reflexivity].
                ** right. split; [exact Ht|]. exists s'. split; [right; exact Hs | exact Es].
             ++ intros t [H|(Ht & s' & [<-|Hs] & Es)]; [apply L2; auto | apply L2; left; right; congruence | apply L2; right; eauto]. }
  destruct (X (-1) (fun _ => False)) as (m & E & B & L); [lia | left; auto | intros t [] |].
  exists m. split; [exact E|]. split; [exact B|]. destruct L as [[-> L]|[[[]|L1] L2]].
  - left. split; [reflexivity|]. intros t H. apply (L t). auto.
  - right. split; [exact L1|]. intros t H. apply L2. auto.
Qed.

(* ------------------------------------------------------------------ *)
(** the loop over the sets *)

Lemma find_set_spec L : forall i0 ss,
  match find_set (combine L (map (fun j => i0 + j) (zrange (zlen L)))) ss with
  | Some v => i0 <= v /\ zget L (v - i0) = Ok ss
  | None => ~ In ss L
  end.
Proof.
  induction L as [|x L IH]; intros i0 ss.
  - cbn. tauto.
  - replace (map (fun j => i0 + j) (zrange (zlen (x :: L)))) with (i0 :: map (fun j => (i0 + 1) + j) (zrange (zlen L))).
    2:{ rewrite (zrange_split_0 (zlen (x :: L))) by (rewrite zlen_cons; pose proof (zlen_nonneg L); lia).
        cbn [map]. rewrite map_map. f_equal; [lia|]. rewrite zlen_cons. replace (zlen L + 1 - 1) with (zlen L) by lia.
        apply map_ext. intros; lia. }
    cbn [combine find_set]. destruct (list_eq_dec Z.eq_dec x ss) as [->|Ne].
    + split; [lia|]. replace (i0 - i0) with 0 by lia. reflexivity.
    + specialize (IH (i0 + 1) ss). destruct (find_set _ ss) as [v|].
      * destruct IH as [Hv G]. split; [lia|]. apply zget_ok in G as [_ G]. apply zget_ok. split; [lia|].
        replace (Z.to_nat (v - i0)) with (S (Z.to_nat (v - (i0 + 1)))) by lia. exact G.
      * intros [|]; auto.
Qed.

Lemma combine_snoc (L : list (list Z)) x :
  combine (L ++ [x]) (zrange (zlen (L ++ [x]))) = combine L (zrange (zlen L)) ++ [(x, zlen L)].
Proof.
  rewrite zlen_snoc, zrange_succ by apply zlen_nonneg.
  assert (length L = length (zrange (zlen L))) as El by (rewrite zrange_length; unfold zlen; lia).
  revert El. generalize (zrange (zlen L)). generalize (zlen L). induction L as [|y L IH]; intros v [|z Z0] El; try discriminate; cbn; [reflexivity|].
  f_equal. apply IH. injection El as El. exact El.
Qed.

(** the cell for one set and symbol is what it should be *)
Definition cell_done (L : list (list Z)) (ss : list Z) (x j : Z) : Prop :=
  (j = -1 /\ forall s t, In s ss -> ~ edge nfa s (Some x) t) \/
  (exists ss', zget L j = Ok ss' /\ silent_closed ss' /\
     forall t, In t ss' <-> exists s m, In s ss /\ edge nfa s (Some x) m /\ epath (edge nfa) m [] t).

Lemma cell_done_app L x ss c j : cell_done L ss c j -> cell_done (L ++ [x]) ss c j.
Proof.
  intros [H|(ss' & H & R)]; [left; exact H|]. right. exists ss'. split; [|exact R].
  rewrite zget_app_l by (apply zget_bounds in H; lia). exact H.
Qed.

Record sets_ok (L : list (list Z)) : Prop := {
  so_nodup : NoDup L;
  so_each : forall s, In s L -> ordered s /\ within n s /\ silent_closed s }.

(** a state of the powerset loop: states below f are finished; of state f the symbols below j *)
Record powering (out : automaton) (L : list (list Z)) (f j : Z) (cf : Z -> Z -> Z) (tf : Z -> Z) : Prop := {
  pw_shape : shape out (zlen L) k true cf tf;
  pw_sets : sets_ok L;
  pw_front : 0 <= f <= zlen L;
  pw_range : forall s c, 0 <= s < zlen L -> 0 <= c < k -> -1 <= cf s c < zlen L;
  pw_done : forall s c ss, zget L s = Ok ss -> 0 <= c < k -> s < f \/ (s = f /\ c < j) -> cell_done L ss c (cf s c);
  pw_todo : forall s c, 0 <= s < zlen L -> 0 <= c < k -> f < s \/ (s = f /\ j <= c) -> cf s c = -1;
  pw_tokens : forall s ss, zget L s = Ok ss -> s < f ->
     -1 <= tf s /\ least (fun tk => tk <> -1 /\ exists q, In q ss /\ tok nfa q = tk) (tf s);
  pw_notokens : forall s, f <= s < zlen L -> tf s = -1 }.

Lemma powerset_symbol_ok out L f ss x cf tf :
  powering out L f x cf tf -> zget L f = Ok ss -> 0 <= x < k ->
  exists out' L' cf' tf', powerset_symbol nfa f ss (out, combine L (zrange (zlen L)), L) x = Ok (out', combine L' (zrange (zlen L')), L') /\
  powering out' L' f (x + 1) cf' tf' /\ (exists add, L' = L ++ add).
Proof.
  intros [P1 P2 P3 P4 P5 P6 P7 P8] G Rx. unfold powerset_symbol. pose proof Hk as K.
  pose proof (zget_bounds _ _ _ G) as Rf.
  destruct (so_each _ P2 ss (zget_In _ _ _ G)) as (Os & Ws & Cs).
  destruct (step_set_ok ss x Ws Rx) as (nx & E & On & Wn & In_).
  rewrite E. cbn [bind]. destruct nx as [|n0 nx'] eqn:En.
  - exists out, L, cf, tf. split; [reflexivity|]. split; [|exists []; rewrite app_nil_r; reflexivity].
    constructor; auto.
    + intros s c ss1 G1 Rc [H|[-> H]]; [apply P5; auto|].
      destruct (Z.eq_dec c x) as [->|]; [|apply P5; auto; right; split; [reflexivity | lia]].
      left. split; [apply P6; [lia|lia|right; split; [reflexivity|lia]]|]. rewrite G1 in G. injection G as ->.
      intros s t Hs He. apply (in_nil (a := t)). apply In_. eauto.
    + intros s c Rs Rc H. apply P6; [exact Rs | exact Rc|]. destruct H as [|[-> H]]; [auto | right; split; [reflexivity | lia]].
  - rewrite <- En in *. clear En. destruct (closure_ok nx On Wn) as (cl & Ec & Oc & Wc & Cc & Ic).
    rewrite Ec. cbn [bind].
    assert (forall t, In t cl <-> exists s m, In s ss /\ edge nfa s (Some x) m /\ epath (edge nfa) m [] t) as Icl.
    { intros t. rewrite Ic. split.
      - intros (m & Hm & P). apply In_ in Hm as (s & Hs & He). eauto.
      - intros (s & m & Hs & He & P). exists m. split; [apply In_; eauto | exact P]. }
    pose proof (find_set_spec L 0 cl) as FS. replace (map (fun j => 0 + j) (zrange (zlen L))) with (zrange (zlen L)) in FS.
    2:{ rewrite <- map_id at 1. apply map_ext. intros; lia. }
    destruct (find_set (combine L (zrange (zlen L))) cl) as [v|].
    + destruct FS as [_ Gv]. replace (v - 0) with v in Gv by lia. pose proof (zget_bounds _ _ _ Gv) as Rv.
      destruct (add_transition_shape _ _ _ _ _ _ f x v P1) as (out' & -> & S'); try lia.
      { apply P6; [lia|lia|right; split; [reflexivity|lia]]. }
      cbn [bind]. exists out', L. eexists. eexists. split; [reflexivity|]. split; [|exists []; rewrite app_nil_r; reflexivity].
      constructor; [exact S' | exact P2 | exact P3 | | | | exact P7 | exact P8]; cbn beta.
      * intros s c Rs Rc. destruct ((s =? f) && (c =? x)); [lia | apply P4; assumption].
      * intros s c ss1 G1 Rc H. destruct (Z.eqb_spec s f) as [->|]; cbn [andb].
        -- destruct (Z.eqb_spec c x) as [->|]; [|apply P5; auto; right; split; [reflexivity | lia]].
           rewrite G1 in G. injection G as ->. right. exists cl. split; [exact Gv|]. split; [exact Cc | exact Icl].
        -- apply P5; auto. left; lia.
      * intros s c Rs Rc H. destruct (Z.eqb_spec s f) as [->|]; cbn [andb].
        -- destruct (Z.eqb_spec c x) as [->|]; [lia|]. apply P6; auto. right; split; [reflexivity | lia].
        -- apply P6; auto. lia.
    + destruct (add_state_shape _ _ _ _ _ _ P1) as (out1 & -> & S1); [lia|]. cbn [bind].
      destruct (add_transition_shape _ _ _ _ _ _ f x (zlen L) S1) as (out' & -> & S'); try lia.
      { destruct (Z.eqb_spec f (zlen L)); [lia|]. apply P6; [lia|lia|right; split; [reflexivity|lia]]. }
      cbn [bind]. exists out', (L ++ [cl]). rewrite combine_snoc. eexists. eexists. split; [reflexivity|]. split; [|eexists; reflexivity].
      constructor; rewrite ?zlen_snoc; [exact S' | | lia | | | | |]; cbn beta.
      * destruct P2 as [Q1 Q2]. constructor.
        -- apply (Permutation.Permutation_NoDup (l := cl :: L)); [apply Permutation.Permutation_cons_append | constructor; assumption].
        -- intros s Hs. apply in_app_or in Hs as [Hs|[<-|[]]]; auto.
      * intros s c Rs Rc. destruct ((s =? f) && (c =? x)); [lia|]. destruct (Z.eqb_spec s (zlen L)); [lia|].
        pose proof (P4 s c ltac:(lia) Rc). lia.
      * intros s c ss1 G1 Rc H. assert (s < zlen L) as Ls by lia.
        rewrite zget_app_l in G1 by lia.
        destruct (Z.eqb_spec s f) as [->|]; cbn [andb].
        -- destruct (Z.eqb_spec c x) as [->|].
           ++ rewrite G1 in G. injection G as ->. right. exists cl. split; [apply zget_app_last|]. split; [exact Cc | exact Icl].
           ++ destruct (Z.eqb_spec f (zlen L)); [lia|]. apply cell_done_app. apply P5; auto. right; split; [reflexivity | lia].
        -- destruct (Z.eqb_spec s (zlen L)); [lia|]. apply cell_done_app. apply P5; auto. left; lia.
      * intros s c Rs Rc H. destruct (Z.eqb_spec s f) as [->|]; cbn [andb].
        -- destruct (Z.eqb_spec c x) as [->|]; [lia|]. destruct (f =? zlen L); [reflexivity|]. apply P6; auto; lia.
        -- destruct (Z.eqb_spec s (zlen L)); [reflexivity|]. apply P6; auto; lia.
      * intros s ss1 G1 H. rewrite zget_app_l in G1 by lia. destruct (Z.eqb_spec s (zlen L)); [exfalso; lia|]. apply P7; assumption.
      * intros s Rs. destruct (Z.eqb_spec s (zlen L)); [reflexivity|]. apply P8. lia.
Qed.

Lemma powerset_iteration_ok out L f cf tf :
  powering out L f 0 cf tf -> f < zlen L ->
  exists out' L' cf' tf', powerset_iteration nfa ((out, combine L (zrange (zlen L)), L), f) = Ok (inl ((out', combine L' (zrange (zlen L')), L'), f + 1)) /\
  powering out' L' (f + 1) 0 cf' tf' /\ (exists add, L' = L ++ add).
Proof.
  intros P Rf. unfold powerset_iteration. destruct (Z.ltb_spec f (zlen L)); [|lia].
  pose proof (pw_front _ _ _ _ _ _ P) as Ff.
  destruct (zget_in_range L f ltac:(lia)) as [ss G]. pose proof G as G'. apply vget_zget in G'. rewrite G'. cbn [bind].
  destruct (forM_invariant (fun x st => exists out' L' cf' tf', st = (out', combine L' (zrange (zlen L')), L') /\
      powering out' L' f x cf' tf' /\ exists add, L' = L ++ add) k (out, combine L (zrange (zlen L)), L) (powerset_symbol nfa f ss))
    as (st & E & out' & L' & cf' & tf' & -> & P' & add & ->).
  - apply Hk.
  - exists out, L, cf, tf. split; [reflexivity|]. split; [exact P|]. exists []. rewrite app_nil_r. reflexivity.
  - intros x st Rx (out1 & L1 & cf1 & tf1 & -> & P1 & add & ->).
    destruct (powerset_symbol_ok out1 (L ++ add) f ss x cf1 tf1 P1) as (out2 & L2 & cf2 & tf2 & E2 & P2 & add2 & ->).
    { rewrite zget_app_l by lia. exact G. }
    { exact Rx. }
    eexists. split; [exact E2|]. exists out2, ((L ++ add) ++ add2), cf2, tf2. split; [reflexivity|]. split; [exact P2|].
    exists (add ++ add2). rewrite app_assoc. reflexivity.
  - fold k. rewrite E. cbn [bind].
    assert (zget (L ++ add) f = Ok ss) as G2 by (rewrite zget_app_l by lia; exact G).
    destruct P' as [P1 P2 P3 P4 P5 P6 P7 P8].
    destruct (so_each _ P2 ss (zget_In _ _ _ G2)) as (Os & Ws & Cs).
    destruct (min_accepted_ok ss Ws) as (m & Em & Bm & Lm). rewrite Em. cbn [bind].
    assert (exists out2 tf2, (if m =? -1 then Ok out' else add_accept out' f m) = Ok out2 /\
      shape out2 (zlen (L ++ add)) k true cf' tf2 /\ (forall s, 0 <= s < zlen (L ++ add) -> tf2 s = if s =? f then m else tf' s)) as (out2 & tf2 & -> & S2 & T2).
    { pose proof (zget_bounds _ _ _ G2) as Rf2. destruct (Z.eqb_spec m (-1)) as [->|].
      - exists out', tf'. split; [reflexivity|]. split; [exact P1|]. intros s Rs. destruct (Z.eqb_spec s f) as [->|]; [apply P8; lia | reflexivity].
      - destruct (add_accept_shape _ _ _ _ _ _ f m P1) as (o2 & -> & S2); try lia. eexists. eexists. split; [reflexivity|]. split; [exact S2|]. reflexivity. }
    cbn [bind]. exists out2, (L ++ add), cf', tf2. split; [reflexivity|]. split; [|exists add; reflexivity].
    constructor; auto.
    + rewrite zlen_app. pose proof (zlen_nonneg add). lia.
    + intros s c ss1 G1 Rc Hs. apply P5; auto. destruct (Z.eq_dec s f); [right; split; [assumption | lia] | left; lia].
    + intros s c Rs Rc Hs. apply P6; auto. left; lia.
    + intros s ss1 G1 Hs. rewrite T2 by (apply zget_bounds in G1; exact G1). destruct (Z.eqb_spec s f) as [->|].
      * rewrite G2 in G1. injection G1 as <-. split; [exact Bm | exact Lm].
      * apply P7; [exact G1 | lia].
    + intros s Hs. rewrite T2 by lia. destruct (Z.eqb_spec s f); [lia|]. apply P8. lia.
Qed.

Lemma iterate_ok {S R} (body : S -> res (S + R)) (Inv : S -> Prop) (Post : R -> Prop) (mu : S -> nat) :
  (forall s, Inv s -> (exists x, body s = Ok (inr x) /\ Post x) \/ (exists s', body s = Ok (inl s') /\ Inv s' /\ (mu s' + 1 <= mu s)%nat)) ->
  forall d s, Inv s -> (exists x, iterate d body s = Ok (inr x) /\ Post x) \/
    (exists s', iterate d body s = Ok (inl s') /\ Inv s' /\ (mu s' + 2 ^ d <= mu s)%nat).
Proof.
  intros B. induction d as [|d IH]; intros s I; cbn [iterate Nat.pow]; [apply B; exact I|].
  destruct (IH s I) as [(x & -> & Px)|(s1 & -> & I1 & M1)]; cbn [bind]; [left; eauto|].
  destruct (IH s1 I1) as [(x & -> & Px)|(s2 & -> & I2 & M2)]; [left; eauto|]. right. exists s2. split; [reflexivity|]. split; [exact I2 | lia].
Qed.

Lemma subset_words L out cf tf (P : powering out L (zlen L) 0 cf tf) : forall w s ss,
  zget L s = Ok ss -> (forall x, In x w -> 0 <= x < k) ->
  exists m, run out s w = Ok m /\ -1 <= m /\
  least (fun tk => tk <> -1 /\ exists q u, In q ss /\ epath (edge nfa) q w u /\ tok nfa u = tk) m.
Proof.
  destruct P as [P1 P2 P3 P4 P5 P6 P7 P8].
  induction w as [|x w IH]; intros s ss G Ov; pose proof (zget_bounds _ _ _ G) as Rs;
    destruct (so_each _ P2 ss (zget_In _ _ _ G)) as (Os & Ws & Cs).
  - cbn [run]. rewrite (shape_accepts _ _ _ _ _ _ s P1 Rs). exists (tf s). split; [reflexivity|].
    destruct (P7 s ss G ltac:(lia)) as [B L0]. split; [exact B|].
    assert (forall tk, (tk <> -1 /\ exists q u, In q ss /\ epath (edge nfa) q [] u /\ tok nfa u = tk) <->
                       (tk <> -1 /\ exists q, In q ss /\ tok nfa q = tk)) as Eq.
    { intros tk. split; intros (N & H); (split; [exact N|]).
      - destruct H as (q & u & Hq & Pq & T). exists u. split; [|exact T].
        clear -Hq Pq Cs. remember [] as w eqn:Ew. induction Pq as [q|q l t w u He Pq IH]; [exact Hq|].
        destruct l as [x|]; [discriminate|]. cbn in Ew. apply IH; [|exact Ew]. eapply Cs; eassumption.
      - destruct H as (q & Hq & T). exists q, q. split; [exact Hq|]. split; [constructor | exact T]. }
    destruct L0 as [[E L0]|[L1 L2]].
    + left. split; [exact E|]. intros t H. apply (L0 t). apply Eq. exact H.
    + right. split; [apply Eq; exact L1|]. intros t H. apply L2. apply Eq. exact H.
  - cbn [run]. assert (0 <= x < k) as Rx by (apply Ov; left; reflexivity).
    rewrite (shape_step _ _ _ _ _ _ s x P1 Rs) by lia. cbn [bind].
    assert (forall q u, In q ss -> epath (edge nfa) q (x :: w) u ->
              exists s1 m, In s1 ss /\ edge nfa s1 (Some x) m /\ epath (edge nfa) m w u) as Dec.
    { intros q u Hq Pq. remember (x :: w) as xw eqn:Ew. induction Pq as [q|q l t w0 u He Pq IHq]; [discriminate|].
      destruct l as [y|].
      - cbn in Ew. injection Ew as -> ->. eauto.
      - cbn in Ew. apply (IHq Ew Ov). eapply Cs; eassumption. }
    destruct (P5 s x ss G Rx (or_introl (proj2 Rs))) as [[E No]|(ss' & G' & Cc & I)].
    + rewrite E. exists (-1). split; [reflexivity|]. split; [lia|]. left. split; [reflexivity|].
      intros tk (N & q & u & Hq & Pq & T). destruct (Dec q u Hq Pq) as (s1 & m & H1 & He & _). exact (No s1 m H1 He).
    + pose proof (zget_bounds _ _ _ G') as Rj. destruct (Z.eqb_spec (cf s x) (-1)); [lia|].
      destruct (IH (cf s x) ss' G') as (m & E & B & L0); [intros y Hy; apply Ov; right; exact Hy|].
      exists m. split; [exact E|]. split; [exact B|].
      assert (forall tk, (tk <> -1 /\ exists q u, In q ss /\ epath (edge nfa) q (x :: w) u /\ tok nfa u = tk) <->
                         (tk <> -1 /\ exists q u, In q ss' /\ epath (edge nfa) q w u /\ tok nfa u = tk)) as Eq.
      { intros tk. split; intros (N & q & u & Hq & Pq & T); (split; [exact N|]).
        - destruct (Dec q u Hq Pq) as (s1 & m1 & H1 & He & P1'). exists m1, u. split; [|split; assumption].
          apply I. exists s1, m1. split; [exact H1|]. split; [exact He | constructor].
        - apply I in Hq as (s1 & m1 & H1 & He & Pm). exists s1, u. split; [exact H1|]. split; [|exact T].
          apply (epath_move (edge nfa) s1 (Some x) m1 w u He). change w with ([] ++ w). eapply epath_app; eassumption. }
      destruct L0 as [[E0 L0]|[L1 L2]].
      * left. split; [exact E0|]. intros t H. apply (L0 t). apply Eq. exact H.
      * right. split; [apply Eq; exact L1|]. intros t H. apply L2. apply Eq. exact H.
Qed.

Lemma powerset_ok : 0 < k -> exists d, make_deterministic nfa = Ok d /\ well_formed d /\ is_deterministic d = true /\ get_nsymbols d = k /\
  forall w, over nfa w -> exists m, run d 0 w = Ok m /\ -1 <= m /\ least (recognises nfa w) m.
Proof.
  intros Kp. unfold make_deterministic. rewrite Nd. fold k. pose proof Hn as N0.
  destruct (new_shape k true) as (f0 & -> & S0); [lia|]. cbn [bind].
  destruct (closure_ok [0]) as (c0 & -> & Oc & Wc & Cc & Ic).
  { repeat constructor. }
  { intros x [<-|[]]. lia. }
  cbn [bind]. destruct (add_state_shape _ _ _ _ _ _ S0) as (f1 & -> & S1); [lia|]. cbn [bind].
  set (st0 := ((f1, [(c0, 0)], [c0]), 0)).
  set (Inv := fun st : powerset_state * Z => exists out L f cf tf, st = ((out, combine L (zrange (zlen L)), L), f) /\
                powering out L f 0 cf tf /\ exists rest, L = c0 :: rest).
  set (Post := fun d => exists L cf tf, powering d L (zlen L) 0 cf tf /\ exists rest, L = c0 :: rest).
  set (mu := fun st : powerset_state * Z => (2 ^ Z.to_nat n - Z.to_nat (snd st))%nat).
  assert (Inv st0) as I0.
  { exists f1, [c0], 0. eexists. eexists. split; [reflexivity|]. split; [|exists []; reflexivity].
    constructor; [exact S1| |change (zlen [c0]) with 1; lia| | | | |]; change (zlen [c0]) with 1.
    - constructor; [repeat constructor; intros []|]. intros s [<-|[]]. auto.
    - intros s c Rs Rc. cbn beta. destruct (s =? 0); lia.
    - intros s c ss G Rc H. apply zget_bounds in G. lia.
    - intros s c Rs Rc H. cbn beta. destruct (s =? 0); reflexivity.
    - intros s ss G H. apply zget_bounds in G. lia.
    - intros s Rs. cbn beta. destruct (s =? 0); reflexivity. }
  destruct (iterate_ok (powerset_iteration nfa) Inv Post mu) with (d := S (length (table nfa))) (s := st0) as [(d & E & Pd)|(s' & E & I' & M)].
  - intros st (out & L & f & cf & tf & -> & P & rest & EL).
    pose proof (pw_front _ _ _ _ _ _ P) as Ff.
    destruct (Z_lt_dec f (zlen L)) as [Lt|Ge].
    + destruct (powerset_iteration_ok out L f cf tf P Lt) as (out' & L' & cf' & tf' & E & P' & add & EL').
      right. eexists. split; [exact E|]. split.
      * exists out', L', (f + 1), cf', tf'. split; [reflexivity|]. split; [exact P'|]. exists (rest ++ add). rewrite EL', EL. reflexivity.
      * unfold mu. cbn [snd]. pose proof (pw_front _ _ _ _ _ _ P') as F'. pose proof (pw_sets _ _ _ _ _ _ P') as [Q1 Q2].
        assert (length L' <= 2 ^ Z.to_nat n)%nat as Len by (apply count_sets; [exact Q1|]; intros s Hs; destruct (Q2 s Hs) as (? & ? & ?); auto).
        unfold zlen in F'. lia.
    + left. unfold powerset_iteration. destruct (Z.ltb_spec f (zlen L)); [lia|]. exists out. split; [reflexivity|].
      assert (f = zlen L) as -> by lia. exists L, cf, tf. split; [exact P|]. eauto.
  - exact I0.
  - exists d. rewrite E. cbn [finish bind]. split; [reflexivity|].
    destruct Pd as (L & cf & tf & P & rest & EL).
    assert (zlen L = zlen rest + 1) as ZL by (rewrite EL; apply zlen_cons). pose proof (zlen_nonneg rest) as ZR.
    pose proof P as [P1 P2 P3 P4 P5 P6 P7 P8].
    split; [|split; [apply (sh_det _ _ _ _ _ _ P1)|split; [apply (shape_nsym _ _ _ _ _ _ P1)|]]].
    + apply (shape_well_formed _ _ _ _ _ _ P1). split; [lia|]. split; [lia|]. split; [lia|]. split.
      * intros s c Rs Rc. apply P4; lia.
      * intros s Rs. destruct (zget_in_range L s Rs) as [ss G]. apply (P7 s ss G). lia.
    + intros w Ov. destruct (subset_words L d cf tf P w 0 c0) as (m & Er & B & Lm).
      { rewrite EL. reflexivity. }
      { exact Ov. }
      exists m. split; [exact Er|]. split; [exact B|].
      assert (forall tk, recognises nfa w tk <-> (tk <> -1 /\ exists q u, In q c0 /\ epath (edge nfa) q w u /\ tok nfa u = tk)) as Eq.
      { intros tk. rewrite recognises_iff by exact W. split.
        - intros (u & Pu & T & N). split; [exact N|]. exists 0, u. split; [|split; assumption]. apply Ic. exists 0. split; [left; reflexivity | constructor].
        - intros (N & q & u & Hq & Pq & T). apply Ic in Hq as (z & [<-|[]] & Pz). exists u. split; [|split; assumption].
          change w with ([] ++ w). eapply epath_app; eassumption. }
      destruct Lm as [[E0 L0]|[L1 L2]].
      * left. split; [exact E0|]. intros t H. apply (L0 t). apply Eq. exact H.
      * right. split; [apply Eq; exact L1|]. intros t H. apply L2. apply Eq. exact H.
  - exfalso. unfold mu, st0 in M. cbn [snd] in M. replace (length (table nfa)) with (Z.to_nat n) in M by (unfold n, zlen; lia).
    cbn [Nat.pow] in M. assert (2 ^ Z.to_nat n <> 0)%nat by (apply Nat.pow_nonzero; lia). lia.
Qed.
End Nfa.
