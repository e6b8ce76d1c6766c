(** The tables of the automata that unite, concat, plus and maybe build. *)
From Verif Require Import Prelude M_Automaton S_Automaton P_Automaton.
Local Open Scope Z_scope.

Lemma fold_transitions l : forall fa n k det cf tf s t,
  shape fa n k det cf tf -> 0 <= s < n -> 0 <= t < n -> NoDup l ->
  (forall x, In x l -> 0 <= x < k + (if det then 0 else 2) /\ cf s x = -1) ->
  exists fa', foldM (fun out i => add_transition out s i t) l fa = Ok fa' /\
  shape fa' n k det (fun s' c => if (s' =? s) && set_count c l then t else cf s' c) tf.
Proof.
  induction l as [|x l IH]; intros fa n k det cf tf s t H Hs Ht N R; cbn [foldM].
  - exists fa. split; [reflexivity|]. eapply shape_ext; [exact H| |reflexivity]. intros s' c _ _. cbn. rewrite andb_false_r. reflexivity.
  - inversion N as [|? ? Nx Nl]; subst. destruct (R x (or_introl eq_refl)) as [Rx Fx].
    destruct (add_transition_shape _ _ _ _ _ _ s x t H Hs Rx Ht Fx) as (fa1 & -> & H1). cbn [bind].
    destruct (IH fa1 n k det _ tf s t H1 Hs Ht Nl) as (fa2 & E2 & H2).
    { intros y Hy. destruct (R y (or_intror Hy)) as [Ry Fy]. split; [exact Ry|]. cbn beta.
      destruct (Z.eqb_spec y x) as [->|]; [contradiction|]. rewrite andb_false_r. exact Fy. }
    exists fa2. split; [exact E2|]. eapply shape_ext; [exact H2| |reflexivity]. intros s' c Hs' Hc. cbn beta.
    unfold set_count; cbn [existsb]. destruct (Z.eqb_spec s' s); cbn [andb]; [|reflexivity].
    destruct (Z.eqb_spec c x); cbn [orb]; [|reflexivity]. destruct (existsb (Z.eqb c) l); reflexivity.
Qed.

Lemma leaf_shape k l token : 0 < k -> 0 <= token -> NoDup l -> (forall x, In x l -> 0 <= x < k) ->
  exists fa, (out <- new_automaton k true ;;
              '(out, s) <- add_state out ;;
              '(out, t) <- add_state out ;;
              out <- foldM (fun out i => add_transition out s i t) l out ;;
              add_accept out t token) = Ok fa /\
  shape fa 2 k true (fun s c => if (s =? 0) && set_count c l then 1 else -1) (fun s => if s =? 1 then token else -1).
Proof.
  intros Hk Ht N R. destruct (new_shape k true) as (f0 & -> & H0); [lia|]. cbn [bind].
  destruct (add_state_shape _ _ _ _ _ _ H0) as (f1 & -> & H1); [lia|]. cbn [bind].
  destruct (add_state_shape _ _ _ _ _ _ H1) as (f2 & -> & H2); [lia|]. cbn [bind].
  destruct (fold_transitions l _ _ _ _ _ _ 0 (0 + 1) H2) as (f3 & -> & H3); try lia; try assumption.
  { intros x Hx. specialize (R x Hx). split; [lia|]. cbn. reflexivity. }
  cbn [bind].
  destruct (add_accept_shape _ _ _ _ _ _ (0 + 1) token H3) as (f4 & -> & H4); try lia.
  exists f4. split; [reflexivity|]. change 2 with (0 + 1 + 1). eapply shape_ext; [exact H4| |]; cbn beta; intros s; intros.
  - destruct (Z.eqb_spec s 0) as [->|]; cbn [andb].
    + destruct (set_count c l); reflexivity.
    + destruct (s =? 0 + 1); reflexivity.
  - replace (0 + 1) with 1 by lia. destruct (s =? 1); [reflexivity|]. destruct (s =? 0); reflexivity.
Qed.

Lemma zfromto_NoDup a b : NoDup (zfromto a b).
Proof. unfold zfromto. apply FinFun.Injective_map_NoDup; [intros x y; lia | apply zrange_NoDup]. Qed.

Lemma set_count_In x l : set_count x l = true <-> In x l.
Proof.
  unfold set_count. rewrite existsb_exists. split.
  - intros (y & Hy & E). apply Z.eqb_eq in E as ->. exact Hy.
  - intros H. exists x. split; [exact H | apply Z.eqb_refl].
Qed.

Lemma make_set_shape k l token : 0 < k -> 0 <= token -> NoDup l -> (forall x, In x l -> 0 <= x < k) ->
  exists fa, make_set_nfa k l token = Ok fa /\
  shape fa 2 k true (fun s c => if (s =? 0) && set_count c l then 1 else -1) (fun s => if s =? 1 then token else -1).
Proof. intros. unfold make_set_nfa. apply leaf_shape; assumption. Qed.

Lemma make_range_shape k a b token : 0 <= token -> 0 <= a <= b -> b < k ->
  exists fa, make_range_nfa k a b token = Ok fa /\
  shape fa 2 k true (fun s c => if (s =? 0) && set_count c (zfromto a (b + 1)) then 1 else -1) (fun s => if s =? 1 then token else -1).
Proof.
  intros Ht Hab Hk. unfold make_range_nfa.
  destruct (Z.leb_spec 0 a); [|lia]. destruct (Z.leb_spec a b); [|lia]. destruct (Z.leb_spec b k); [|lia]. cbn [check bind].
  apply leaf_shape; try lia; [apply zfromto_NoDup|]. intros x Hx. apply in_zfromto in Hx. lia.
Qed.

Lemma shift_ge o t : t <> -1 -> -1 <= t -> shift o t = t + o.
Proof. intros. unfold shift. destruct (Z.ltb_spec t 0); lia. Qed.
Lemma shift_neg o : shift o (-1) = -1.
Proof. reflexivity. Qed.
Lemma shift_0 t : -1 <= t -> shift 0 t = t.
Proof. intros. unfold shift. destruct (Z.ltb_spec t 0); lia. Qed.
Lemma shift_range o t n : 0 <= o -> -1 <= t < n -> -1 <= shift o t < n + o.
Proof. intros. unfold shift. destruct (Z.ltb_spec t 0); lia. Qed.

Definition unite_cell (a b : automaton) (k na s c : Z) : Z :=
  if s =? 0 then (if c =? k then 1 else if c =? k + 1 then 1 + na else -1)
  else if s <? 1 + na then shift 1 (cell a (s - 1) c) else shift (1 + na) (cell b (s - (1 + na)) c).
Definition unite_tok (a b : automaton) (na s : Z) : Z :=
  if s =? 0 then -1 else if s <? 1 + na then tok a (s - 1) else tok b (s - (1 + na)).

Lemma unite_shape a b k : well_formed a -> well_formed b -> get_nsymbols a = k -> get_nsymbols b = k ->
  exists fa, unite a b = Ok fa /\
  shape fa (1 + zlen (table a) + zlen (table b)) k false (unite_cell a b k (zlen (table a))) (unite_tok a b (zlen (table a))).
Proof.
  intros Wa Wb Ka Kb. unfold unite. rewrite Ka.
  pose proof (well_formed_good a Wa) as (A1 & A2 & _). pose proof (well_formed_good b Wb) as (B1 & _).
  rewrite Ka in A2.
  destruct (new_shape k false) as (f0 & -> & H0); [lia|]. cbn [bind].
  destruct (add_state_shape _ _ _ _ _ _ H0) as (f1 & -> & H1); [lia|]. cbn [bind].
  rewrite (shape_nstates _ _ _ _ _ _ H1) by lia. cbn [bind].
  destruct (append_shape _ a _ _ _ _ _ H1 Wa Ka) as (f2 & -> & H2); [lia | right; reflexivity|]. cbn [bind].
  rewrite (shape_nstates _ _ _ _ _ _ H2) by lia. cbn [bind].
  destruct (append_shape _ b _ _ _ _ _ H2 Wb Kb) as (f3 & -> & H3); [lia | right; reflexivity|]. cbn [bind].
  unfold get_epsilon0, get_epsilon1. rewrite (sh_det _ _ _ _ _ _ H3), (sh_nc _ _ _ _ _ _ H3). cbn [negb check bind].
  set (na := zlen (table a)) in *. set (nb := zlen (table b)) in *.
  destruct (add_transition_shape _ _ _ _ _ _ 0 (k + 2 - 2) (0 + 1) H3) as (f4 & -> & H4); try lia.
  { cbn beta. destruct (Z.ltb_spec 0 (0 + 1 + na)); [|lia]. reflexivity. }
  cbn [bind].
  destruct (add_transition_shape _ _ _ _ _ _ 0 (k + 2 - 1) (0 + 1 + na) H4) as (f5 & -> & H5); try lia.
  { cbn beta. destruct (Z.eqb_spec (k + 2 - 1) (k + 2 - 2)); [lia|]. rewrite andb_false_r.
    destruct (Z.ltb_spec 0 (0 + 1 + na)); [|lia]. reflexivity. }
  exists f5. split; [reflexivity|]. replace (1 + na + nb) with (0 + 1 + na + nb) by lia.
  eapply shape_ext; [exact H5| |]; cbn beta; intros s; intros.
  - unfold unite_cell. destruct (Z.eqb_spec s 0) as [->|]; cbn [andb].
    + destruct (Z.eqb_spec c (k + 2 - 1)), (Z.eqb_spec c (k + 2 - 2)), (Z.eqb_spec c k), (Z.eqb_spec c (k + 1)); try lia.
      destruct (Z.ltb_spec 0 (0 + 1 + na)); [|lia]. reflexivity.
    + replace (0 + 1) with 1 by lia. destruct (Z.ltb_spec s (1 + na)); [|reflexivity].
      destruct (Z.ltb_spec s 1); [lia|]. reflexivity.
  - unfold unite_tok. replace (0 + 1) with 1 by lia. destruct (Z.eqb_spec s 0) as [->|].
    + destruct (Z.ltb_spec 0 (1 + na)); [|lia]. reflexivity.
    + destruct (Z.ltb_spec s (1 + na)); [|reflexivity]. destruct (Z.ltb_spec s 1); [lia|]. reflexivity.
Qed.

Definition acc (a : automaton) (s : Z) : bool := negb (tok a s =? -1).
Definition concat_cell (a b : automaton) (k na s c : Z) : Z :=
  if s <? na then (if acc a s && (c =? k) then na else cell a s c) else shift na (cell b (s - na) c).
Definition concat_tok (b : automaton) (na token s : Z) : Z := if (na <=? s) && acc b (s - na) then token else -1.

Lemma concat_shape a b k token : well_formed a -> well_formed b -> get_nsymbols a = k -> get_nsymbols b = k -> 0 <= token ->
  (forall s, tok a s <> -1 -> cell a s k = -1) ->
  exists fa, concat a b token = Ok fa /\
  shape fa (zlen (table a) + zlen (table b)) k false (concat_cell a b k (zlen (table a))) (concat_tok b (zlen (table a)) token).
Proof.
  intros Wa Wb Ka Kb Ht Q. unfold concat. rewrite Ka.
  pose proof (well_formed_good a Wa) as (A1 & A2 & A3 & _). pose proof (well_formed_good b Wb) as (B1 & _ & B3 & _).
  pose proof (well_formed_shape a Wa) as HA. pose proof (well_formed_shape b Wb) as HB.
  rewrite Ka in A2.
  destruct (new_shape k false) as (f0 & -> & H0); [lia|]. cbn [bind].
  destruct (append_shape _ a _ _ _ _ _ H0 Wa Ka) as (f2 & -> & H2); [lia | right; reflexivity|]. cbn [bind].
  rewrite (shape_nstates _ _ _ _ _ _ H2) by lia. cbn [bind].
  destruct (append_shape _ b _ _ _ _ _ H2 Wb Kb) as (f3 & -> & H3); [lia | right; reflexivity|]. cbn [bind].
  unfold get_epsilon0. rewrite (sh_det _ _ _ _ _ _ H3), (sh_nc _ _ _ _ _ _ H3). cbn [negb check bind].
  rewrite (shape_nstates _ _ _ _ _ _ HA A3). cbn [bind].
  set (na := zlen (table a)) in *. set (nb := zlen (table b)) in *. replace (0 + na) with na in * by lia.
  destruct (forM_invariant (fun i f => shape f (na + nb) k false
     (fun s c => if s <? na then (if (s <? i) && acc a s && (c =? k) then na else cell a s c) else shift na (cell b (s - na) c))
     (fun s => if s <? na then (if s <? i then -1 else tok a s) else tok b (s - na))) na f3
     (fun out i => t <- accepts a i ;; if t =? -1 then Ok out
        else out <- add_transition out i (k + 2 - 2) na ;; remove_accept out i)) as (f4 & -> & H4).
  - lia.
  - eapply shape_ext; [exact H3| |]; cbn beta; intros s; intros.
    + destruct (Z.ltb_spec s na); [|reflexivity]. destruct (Z.ltb_spec s 0); [lia|]. cbn [andb].
      replace (s - 0) with s by lia. apply shift_0. pose proof (cell_range a s c Wa). lia.
    + destruct (Z.ltb_spec s na); [|reflexivity]. destruct (Z.ltb_spec s 0); [lia|]. f_equal; lia.
  - intros i f Hi Hf. rewrite (shape_accepts _ _ _ _ _ _ i HA Hi). cbn [bind].
    destruct (Z.eqb_spec (tok a i) (-1)) as [En|En].
    + eexists. split; [reflexivity|]. eapply shape_ext; [exact Hf| |]; cbn beta; intros s; intros.
      * destruct (Z.ltb_spec s na); [|reflexivity].
        destruct (Z.ltb_spec s i), (Z.ltb_spec s (i + 1)); try lia; try reflexivity.
        assert (s = i) as -> by lia. unfold acc. rewrite En. reflexivity.
      * destruct (Z.ltb_spec s na); [|reflexivity].
        destruct (Z.ltb_spec s i), (Z.ltb_spec s (i + 1)); try lia; try reflexivity.
        assert (s = i) as -> by lia. exact En.
    + destruct (add_transition_shape _ _ _ _ _ _ i (k + 2 - 2) na Hf) as (f5 & -> & H5); try lia.
      { cbn beta. destruct (Z.ltb_spec i na); [|lia]. destruct (Z.ltb_spec i i); [lia|]. cbn [andb].
        replace (k + 2 - 2) with k by lia. apply Q. exact En. }
      cbn [bind]. destruct (remove_accept_shape _ _ _ _ _ _ i H5) as (f6 & -> & H6); [lia|].
      eexists. split; [reflexivity|]. eapply shape_ext; [exact H6| |]; cbn beta; intros s; intros.
      * replace (k + 2 - 2) with k by lia. destruct (Z.eqb_spec s i) as [->|]; cbn [andb].
        -- destruct (Z.ltb_spec i na); [|lia]. destruct (Z.ltb_spec i i); [lia|]. destruct (Z.ltb_spec i (i + 1)); [|lia].
           unfold acc. destruct (Z.eqb_spec (tok a i) (-1)); [contradiction|]. cbn [negb andb]. destruct (c =? k); reflexivity.
        -- destruct (Z.ltb_spec s na); [|reflexivity].
           destruct (Z.ltb_spec s i), (Z.ltb_spec s (i + 1)); try lia; reflexivity.
      * destruct (Z.eqb_spec s i) as [->|].
        -- destruct (Z.ltb_spec i na); [|lia]. destruct (Z.ltb_spec i (i + 1)); [|lia]. reflexivity.
        -- destruct (Z.ltb_spec s na); [|reflexivity].
           destruct (Z.ltb_spec s i), (Z.ltb_spec s (i + 1)); try lia; reflexivity.
  - cbn [bind]. rewrite (shape_nstates _ _ _ _ _ _ HB B3). cbn [bind].
    destruct (forM_invariant (fun i f => shape f (na + nb) k false (concat_cell a b k na)
     (fun s => if s <? na then -1 else if s - na <? i then (if acc b (s - na) then token else -1) else tok b (s - na))) nb f4
     (fun out i => t <- accepts b i ;; if t =? -1 then Ok out else add_accept out (i + na) token)) as (f5 & E5 & H5).
    + lia.
    + eapply shape_ext; [exact H4| |]; cbn beta; intros s; intros.
      * unfold concat_cell. destruct (Z.ltb_spec s na); [|reflexivity]. reflexivity.
      * destruct (Z.ltb_spec s na); [reflexivity|]. destruct (Z.ltb_spec (s - na) 0); [lia | reflexivity].
    + intros i f Hi Hf. rewrite (shape_accepts _ _ _ _ _ _ i HB Hi). cbn [bind].
      destruct (Z.eqb_spec (tok b i) (-1)) as [En|En].
      * eexists. split; [reflexivity|]. eapply shape_ext; [exact Hf| |]; cbn beta; intros s; intros; [reflexivity|].
        destruct (Z.ltb_spec s na); [reflexivity|].
        destruct (Z.ltb_spec (s - na) i), (Z.ltb_spec (s - na) (i + 1)); try lia; try reflexivity.
        assert (s - na = i) as -> by lia. unfold acc. rewrite En. reflexivity.
      * destruct (add_accept_shape _ _ _ _ _ _ (i + na) token Hf) as (f6 & -> & H6); try lia.
        eexists. split; [reflexivity|]. eapply shape_ext; [exact H6| |]; cbn beta; intros s; intros; [reflexivity|].
        destruct (Z.eqb_spec s (i + na)) as [->|].
        -- destruct (Z.ltb_spec (i + na) na); [lia|]. replace (i + na - na) with i by lia.
           destruct (Z.ltb_spec i (i + 1)); [|lia]. unfold acc. destruct (Z.eqb_spec (tok b i) (-1)); [contradiction | reflexivity].
        -- destruct (Z.ltb_spec s na); [reflexivity|].
           destruct (Z.ltb_spec (s - na) i), (Z.ltb_spec (s - na) (i + 1)); try lia; reflexivity.
    + exists f5. split; [exact E5|]. eapply shape_ext; [exact H5| |]; cbn beta; intros s; intros; [reflexivity|].
      unfold concat_tok. destruct (Z.ltb_spec s na), (Z.leb_spec na s); try lia; cbn [andb]; [reflexivity|].
      destruct (Z.ltb_spec (s - na) nb); [reflexivity | lia].
Qed.

Definition plus_cell (a : automaton) (k na s c : Z) : Z :=
  if acc a s then (if c =? k then na else if c =? k + 1 then 0 else cell a s c) else cell a s c.
Definition plus_tok (na token s : Z) : Z := if s =? na then token else -1.

Lemma acc_out a s : well_formed a -> acc a s = true -> 0 <= s < zlen (table a).
Proof. intros W. unfold acc. destruct (Z.eqb_spec (tok a s) (-1)); [discriminate|]. intros _. apply tok_out; assumption. Qed.

Lemma cell_beyond a s c : well_formed a -> ~ 0 <= s < zlen (table a) -> cell a s c = -1.
Proof. intros W N. destruct (Z.eq_dec (cell a s c) (-1)); [assumption|]. destruct (cell_out a s c W); [assumption | lia]. Qed.

Lemma acc_beyond a s : well_formed a -> ~ 0 <= s < zlen (table a) -> acc a s = false.
Proof. intros W N. destruct (acc a s) eqn:E; [|reflexivity]. apply acc_out in E; [lia | assumption]. Qed.

Lemma plus_shape a k token : well_formed a -> get_nsymbols a = k -> 0 <= token ->
  (forall s, tok a s <> -1 -> cell a s k = -1 /\ cell a s (k + 1) = -1) ->
  exists fa, plus a token = Ok fa /\
  shape fa (zlen (table a) + 1) k false (plus_cell a k (zlen (table a))) (plus_tok (zlen (table a)) token).
Proof.
  intros Wa Ka Ht Q. unfold plus. rewrite Ka.
  pose proof (well_formed_good a Wa) as (A1 & A2 & A3 & _).
  pose proof (well_formed_shape a Wa) as HA. rewrite Ka in A2.
  destruct (new_shape k false) as (f0 & -> & H0); [lia|]. cbn [bind].
  destruct (append_shape _ a _ _ _ _ _ H0 Wa Ka) as (f2 & -> & H2); [lia | right; reflexivity|]. cbn [bind].
  destruct (add_state_shape _ _ _ _ _ _ H2) as (f3 & -> & H3); [lia|]. cbn [bind].
  set (na := zlen (table a)) in *. replace (0 + na) with na in * by lia.
  destruct (add_accept_shape _ _ _ _ _ _ na token H3) as (f4 & -> & H4); try lia. cbn [bind].
  unfold get_epsilon0, get_epsilon1. rewrite (sh_det _ _ _ _ _ _ H4), (sh_nc _ _ _ _ _ _ H4). cbn [negb check bind].
  rewrite (shape_nstates _ _ _ _ _ _ HA A3). cbn [bind].
  destruct (forM_invariant (fun i f => shape f (na + 1) k false
     (fun s c => if s <? i then plus_cell a k na s c else cell a s c)
     (fun s => if s =? na then token else if s <? i then -1 else tok a s)) na f4
     (fun out i => t <- accepts a i ;; if t =? -1 then Ok out
        else out <- add_transition out i (k + 2 - 2) na ;; out <- add_transition out i (k + 2 - 1) 0 ;; remove_accept out i)) as (f5 & -> & H5).
  - lia.
  - eapply shape_ext; [exact H4| |]; cbn beta; intros s; intros.
    + destruct (Z.ltb_spec s 0); [lia|]. replace (s - 0) with s by lia.
      destruct (Z.eqb_spec s na) as [->|]; [symmetry; apply cell_beyond; [assumption | lia]|].
      apply shift_0. pose proof (cell_range a s c Wa). lia.
    + destruct (Z.ltb_spec s 0); [lia|]. replace (s - 0) with s by lia. destruct (s =? na); reflexivity.
  - intros i f Hi Hf. rewrite (shape_accepts _ _ _ _ _ _ i HA Hi). cbn [bind].
    destruct (Z.eqb_spec (tok a i) (-1)) as [En|En].
    + eexists. split; [reflexivity|]. eapply shape_ext; [exact Hf| |]; cbn beta; intros s; intros.
      * destruct (Z.ltb_spec s i), (Z.ltb_spec s (i + 1)); try lia; try reflexivity.
        assert (s = i) as -> by lia. unfold plus_cell, acc. rewrite En. reflexivity.
      * destruct (Z.eqb_spec s na); [reflexivity|].
        destruct (Z.ltb_spec s i), (Z.ltb_spec s (i + 1)); try lia; try reflexivity.
        assert (s = i) as -> by lia. exact En.
    + destruct (Q i En) as [Q0 Q1].
      destruct (add_transition_shape _ _ _ _ _ _ i (k + 2 - 2) na Hf) as (f6 & -> & H6); try lia.
      { cbn beta. destruct (Z.ltb_spec i i); [lia|]. replace (k + 2 - 2) with k by lia. exact Q0. }
      cbn [bind]. destruct (add_transition_shape _ _ _ _ _ _ i (k + 2 - 1) 0 H6) as (f7 & -> & H7); try lia.
      { cbn beta. destruct (Z.eqb_spec (k + 2 - 1) (k + 2 - 2)); [lia|]. rewrite andb_false_r.
        destruct (Z.ltb_spec i i); [lia|]. replace (k + 2 - 1) with (k + 1) by lia. exact Q1. }
      cbn [bind]. destruct (remove_accept_shape _ _ _ _ _ _ i H7) as (f8 & -> & H8); [lia|].
      eexists. split; [reflexivity|]. eapply shape_ext; [exact H8| |]; cbn beta; intros s; intros.
      * replace (k + 2 - 2) with k by lia. replace (k + 2 - 1) with (k + 1) by lia. destruct (Z.eqb_spec s i) as [->|]; cbn [andb].
        -- destruct (Z.ltb_spec i i); [lia|]. destruct (Z.ltb_spec i (i + 1)); [|lia]. unfold plus_cell, acc.
           destruct (Z.eqb_spec (tok a i) (-1)); [contradiction|]. cbn [negb].
           destruct (Z.eqb_spec c k), (Z.eqb_spec c (k + 1)); try lia; reflexivity.
        -- destruct (Z.ltb_spec s i), (Z.ltb_spec s (i + 1)); try lia; reflexivity.
      * destruct (Z.eqb_spec s i) as [->|].
        -- destruct (Z.eqb_spec i na); [lia|]. destruct (Z.ltb_spec i (i + 1)); [|lia]. reflexivity.
        -- destruct (Z.eqb_spec s na); [reflexivity|].
           destruct (Z.ltb_spec s i), (Z.ltb_spec s (i + 1)); try lia; reflexivity.
  - exists f5. split; [reflexivity|]. eapply shape_ext; [exact H5| |]; cbn beta; intros s; intros.
    + destruct (Z.ltb_spec s na); [reflexivity|]. unfold plus_cell. rewrite acc_beyond by (try assumption; lia). reflexivity.
    + unfold plus_tok. destruct (Z.eqb_spec s na); [reflexivity|]. destruct (Z.ltb_spec s na); [reflexivity | lia].
Qed.

(** maybe: the new start, the old accepting states and the new accepting state form a chain. *)
Definition chain (a : automaton) (na s : Z) : Prop := s = 0 \/ s = na + 1 \/ acc a (s - 1) = true.
Record maybe_cells (a : automaton) (k na : Z) (cf : Z -> Z -> Z) : Prop := {
  mc_chain : forall s, 0 <= s < na + 1 -> chain a na s -> s < cf s k <= na + 1 /\ chain a na (cf s k);
  mc_start : cf 0 (k + 1) = 1;
  mc_start_symbols : forall c, 0 <= c < k -> cf 0 c = -1;
  mc_old : forall s c, 1 <= s <= na -> 0 <= c < k + 2 -> (c <> k \/ acc a (s - 1) = false) -> cf s c = shift 1 (cell a (s - 1) c);
  mc_last : forall c, 0 <= c < k + 2 -> cf (na + 1) c = -1 }.

Lemma maybe_shape a k token : well_formed a -> get_nsymbols a = k -> 0 <= token ->
  (forall s, tok a s <> -1 -> cell a s k = -1) ->
  exists fa cf, maybe a token = Ok fa /\ maybe_cells a k (zlen (table a)) cf /\
  shape fa (zlen (table a) + 2) k false cf (fun s => if s =? zlen (table a) + 1 then token else -1).
Proof.
  intros Wa Ka Ht Q. unfold maybe. rewrite Ka.
  pose proof (well_formed_good a Wa) as (A1 & A2 & A3 & _).
  pose proof (well_formed_shape a Wa) as HA. rewrite Ka in A2.
  destruct (new_shape k false) as (f0 & -> & H0); [lia|]. cbn [bind].
  destruct (add_state_shape _ _ _ _ _ _ H0) as (f1 & -> & H1); [lia|]. cbn [bind].
  rewrite (shape_nstates _ _ _ _ _ _ H1) by lia. cbn [bind].
  destruct (append_shape _ a _ _ _ _ _ H1 Wa Ka) as (f2 & -> & H2); [lia | right; reflexivity|]. cbn [bind].
  destruct (add_state_shape _ _ _ _ _ _ H2) as (f3 & -> & H3); [lia|]. cbn [bind].
  set (na := zlen (table a)) in *. replace (0 + 1) with 1 in * by lia.
  unfold get_epsilon0, get_epsilon1. rewrite (sh_det _ _ _ _ _ _ H3), (sh_nc _ _ _ _ _ _ H3). cbn [negb check bind].
  replace (k + 2 - 2) with k by lia. replace (k + 2 - 1) with (k + 1) by lia.
  destruct (add_transition_shape _ _ _ _ _ _ 0 (k + 1) 1 H3) as (f4 & -> & H4); try lia.
  { cbn beta. destruct (Z.eqb_spec 0 (1 + na)); [lia|]. destruct (Z.ltb_spec 0 1); [|lia]. reflexivity. }
  cbn [bind]. rewrite (shape_nstates _ _ _ _ _ _ HA A3). cbn [bind].
  destruct (forM_invariant (fun i (fl : automaton * Z) => exists cf, let '(f, last) := fl in
      shape f (na + 2) k false cf (fun s => if (1 + i <=? s) && (s <=? na) then tok a (s - 1) else -1) /\
      0 <= last <= i /\ chain a na last /\ cf last k = -1 /\
      (forall s, 0 <= s < last -> chain a na s -> s < cf s k <= last /\ chain a na (cf s k)) /\
      (forall s, last < s <= i -> chain a na s -> False) /\
      (forall s, i < s <= na -> acc a (s - 1) = true -> cf s k = -1) /\
      cf 0 (k + 1) = 1 /\ (forall c, 0 <= c < k -> cf 0 c = -1) /\
      (forall s c, 1 <= s <= na -> 0 <= c < k + 2 -> (c <> k \/ acc a (s - 1) = false) -> cf s c = shift 1 (cell a (s - 1) c)) /\
      (forall c, 0 <= c < k + 2 -> cf (na + 1) c = -1)) na (f4, 0)
     (fun '(out, last) i =>
        t <- accepts a i ;;
        (if t =? -1 then Ok (out, last)
         else out <- add_transition out last k (i + 1) ;; out <- remove_accept out (i + 1) ;; Ok (out, i + 1))))
    as ([f5 last] & E5 & I5).
  - lia.
  - eexists. split; [|split; [lia|split; [left; reflexivity|]]].
    { eapply shape_ext; [replace (na + 2) with (1 + na + 1) by lia; exact H4| |]; cbn beta; intros s; intros.
      - reflexivity.
      - destruct (Z.eqb_spec s (1 + na)) as [->|].
        + destruct (Z.leb_spec (1 + na) na); [lia|]. rewrite andb_false_r. reflexivity.
        + destruct (Z.ltb_spec s 1).
          * destruct (Z.eqb_spec s 0); [|lia]. destruct (Z.leb_spec (1 + 0) s); [lia|]. reflexivity.
          * destruct (Z.leb_spec (1 + 0) s); [|lia]. destruct (Z.leb_spec s na); [|lia]. reflexivity. }
    cbn beta. split; [|split; [|split; [|split; [|split; [|split; [|split]]]]]].
    + destruct (Z.eqb_spec k (k + 1)); [lia|]. rewrite andb_false_r. destruct (Z.eqb_spec 0 (1 + na)); [lia|]. reflexivity.
    + intros s Hs; lia.
    + intros s Hs; lia.
    + intros s Hs Ac. destruct (Z.eqb_spec s 0); [lia|]. cbn [andb]. destruct (Z.eqb_spec s (1 + na)); [lia|].
      destruct (Z.ltb_spec s 1); [lia|]. rewrite Q; [reflexivity|]. unfold acc in Ac. intros X. rewrite X in Ac. discriminate.
    + rewrite !Z.eqb_refl. reflexivity.
    + intros c Hc. destruct (Z.eqb_spec c (k + 1)); [lia|]. cbn [andb]. destruct (Z.eqb_spec 0 (1 + na)); [lia|]. reflexivity.
    + intros s c Hs Hc _. destruct (Z.eqb_spec s 0); [lia|]. cbn [andb]. destruct (Z.eqb_spec s (1 + na)); [lia|].
      destruct (Z.ltb_spec s 1); [lia|]. reflexivity.
    + intros c Hc. destruct (Z.eqb_spec (na + 1) 0); [lia|]. cbn [andb]. destruct (Z.eqb_spec (na + 1) (1 + na)); [|lia]. reflexivity.
  - intros i [f last] Hi (cf & Hf & HL & HC & HK & HI & HN & HQ & HS & HSS & HO & HE).
    rewrite (shape_accepts _ _ _ _ _ _ i HA Hi). cbn [bind].
    destruct (Z.eqb_spec (tok a i) (-1)) as [En|En].
    + eexists. split; [reflexivity|]. exists cf. split; [|split; [lia|split; [exact HC|split; [exact HK|split; [exact HI|split; [|split; [|split; [exact HS|split; [exact HSS|split; [exact HO|exact HE]]]]]]]]]].
      * eapply shape_ext; [exact Hf| |]; cbn beta; intros s; intros; [reflexivity|].
        destruct (Z.leb_spec (1 + i) s), (Z.leb_spec (1 + (i + 1)) s); try lia; cbn [andb]; try reflexivity.
        assert (s = 1 + i) as -> by lia. replace (1 + i - 1) with i by lia. rewrite En. destruct (_ <=? _); reflexivity.
      * intros s Hs Cs. destruct (Z.eq_dec s (i + 1)) as [->|]; [|apply (HN s); [lia | exact Cs]].
        destruct Cs as [|[|Cs]]; [lia|lia|]. unfold acc in Cs. replace (i + 1 - 1) with i in Cs by lia. rewrite En in Cs. discriminate.
      * intros s Hs Ac. apply HQ; [lia | exact Ac].
    + assert (acc a i = true) as Ai by (unfold acc; destruct (Z.eqb_spec (tok a i) (-1)); [contradiction | reflexivity]).
      destruct (add_transition_shape _ _ _ _ _ _ last k (i + 1) Hf) as (f6 & -> & H6); try lia; try assumption.
      cbn [bind]. destruct (remove_accept_shape _ _ _ _ _ _ (i + 1) H6) as (f7 & -> & H7); [lia|]. cbn [bind].
      eexists. split; [reflexivity|]. eexists. split; [|split; [lia|split; [right; right; replace (i + 1 - 1) with i by lia; exact Ai|]]].
      { eapply shape_ext; [exact H7| |]; cbn beta; intros s; intros; [reflexivity|].
        destruct (Z.eqb_spec s (i + 1)) as [->|].
        - destruct (Z.leb_spec (1 + (i + 1)) (i + 1)); [lia|]. reflexivity.
        - destruct (Z.leb_spec (1 + i) s), (Z.leb_spec (1 + (i + 1)) s); try lia; reflexivity. }
      cbn beta. split; [|split; [|split; [|split; [|split; [|split; [|split]]]]]].
      * destruct (Z.eqb_spec (i + 1) last); [lia|]. cbn [andb]. apply HQ; [lia|]. replace (i + 1 - 1) with i by lia. exact Ai.
      * intros s Hs Cs. rewrite Z.eqb_refl, andb_true_r. destruct (Z.eqb_spec s last) as [->|].
        -- split; [lia|]. right; right. replace (i + 1 - 1) with i by lia. exact Ai.
        -- destruct (Z_lt_dec s last) as [L|L].
           ++ destruct (HI s ltac:(lia) Cs). split; [lia | assumption].
           ++ exfalso. apply (HN s); [lia | exact Cs].
      * intros s Hs; lia.
      * intros s Hs Ac. destruct (Z.eqb_spec s last); [lia|]. cbn [andb]. apply HQ; [lia | exact Ac].
      * destruct (Z.eqb_spec (k + 1) k); [lia|]. rewrite andb_false_r. exact HS.
      * intros c Hc. destruct (Z.eqb_spec c k); [lia|]. rewrite andb_false_r. apply HSS; exact Hc.
      * intros s c Hs Hc Ho. destruct (Z.eqb_spec s last) as [->|]; cbn [andb]; [|apply HO; assumption].
        destruct (Z.eqb_spec c k) as [->|]; [|apply HO; assumption].
        exfalso. destruct Ho as [Ho|Ho]; [congruence|]. destruct HC as [|[|HC]]; [lia|lia|congruence].
      * intros c Hc. destruct (Z.eqb_spec (na + 1) last); [lia|]. cbn [andb]. apply HE; exact Hc.
  - rewrite E5. cbn [bind]. destruct I5 as (cf & Hf & HL & HC & HK & HI & HN & HQ & HS & HSS & HO & HE).
    destruct (add_transition_shape _ _ _ _ _ _ last k (1 + na) Hf) as (f6 & -> & H6); try lia; try assumption. cbn [bind].
    destruct (add_accept_shape _ _ _ _ _ _ (1 + na) token H6) as (f7 & -> & H7); try lia.
    exists f7, (fun s' c' => if (s' =? last) && (c' =? k) then 1 + na else cf s' c'). split; [reflexivity|]. split; [|eapply shape_ext; [exact H7| |]; cbn beta; intros s; intros].
    + constructor; cbn beta.
      * intros s Hs Cs. rewrite Z.eqb_refl, andb_true_r. destruct (Z.eqb_spec s last) as [->|].
        -- split; [lia|]. right; left; lia.
        -- destruct (Z_lt_dec s last) as [L|L].
           ++ destruct (HI s ltac:(lia) Cs). split; [lia | assumption].
           ++ exfalso. apply (HN s); [lia | exact Cs].
      * destruct (Z.eqb_spec (k + 1) k); [lia|]. rewrite andb_false_r. exact HS.
      * intros c Hc. destruct (Z.eqb_spec c k); [lia|]. rewrite andb_false_r. apply HSS; exact Hc.
      * intros s c Hs Hc Ho. destruct (Z.eqb_spec s last) as [->|]; cbn [andb]; [|apply HO; assumption].
        destruct (Z.eqb_spec c k) as [->|]; [|apply HO; assumption].
        exfalso. destruct Ho as [Ho|Ho]; [congruence|]. destruct HC as [|[|HC]]; [lia|lia|congruence].
      * intros c Hc. destruct (Z.eqb_spec (na + 1) last); [lia|]. cbn [andb]. apply HE; exact Hc.
    + reflexivity.
    + replace (na + 1) with (1 + na) by lia. destruct (Z.eqb_spec s (1 + na)); [reflexivity|].
      destruct (Z.leb_spec (1 + na) s); [lia|]. reflexivity.
Qed.
