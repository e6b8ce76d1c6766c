(** Merging equal states. *)
From Verif Require Import Prelude M_Automaton S_Automaton P_Automaton P_Automaton2 P_Automaton3 P_Automaton5.
Local Open Scope Z_scope.

Section Once.
Variable fa : automaton.
Hypothesis W : well_formed fa.
Let n := zlen (table fa).
Let k := get_nsymbols fa.
Let det := is_deterministic fa.
Let nc := ncols fa.

Local Lemma Sh : shape fa n k det (cell fa) (tok fa).
Proof. exact (well_formed_shape fa W). Qed.
Local Lemma Hn : 0 < n.
Proof. destruct (well_formed_good fa W) as (X & _). exact X. Qed.
Local Lemma Hk : 0 <= k.
Proof. destruct (well_formed_good fa W) as (_ & X & _). exact X. Qed.
Local Lemma Hnc : nc = k + (if det then 0 else 2).
Proof. exact (sh_nc _ _ _ _ _ _ Sh). Qed.
Local Lemma Hnc0 : 0 < nc.
Proof. destruct (well_formed_good fa W) as (_ & _ & X & _). rewrite Hnc. exact X. Qed.

Definition same (a b : Z) : Prop := tok fa a = tok fa b /\ forall c, 0 <= c < nc -> cell fa a c = cell fa b c.

Lemma same_refl a : same a a.
Proof. split; auto. Qed.
Lemma same_sym a b : same a b -> same b a.
Proof. intros [A B]. split; [auto|]. intros c Hc. symmetry. auto. Qed.
Lemma same_trans a b c : same a b -> same b c -> same a c.
Proof. intros [A B] [C D]. split; [congruence|]. intros x Hx. rewrite B by exact Hx. auto. Qed.

Definition sameb (a b : Z) : bool :=
  (tok fa a =? tok fa b) && forallb (fun c => cell fa a c =? cell fa b c) (zrange nc).

Lemma sameb_iff a b : sameb a b = true <-> same a b.
Proof.
  unfold sameb, same. rewrite andb_true_iff, Z.eqb_eq, forallb_forall. split; intros [A B]; (split; [exact A|]).
  - intros c Hc. apply Z.eqb_eq. apply B. apply in_zrange. exact Hc.
  - intros c Hc. apply Z.eqb_eq. apply B. apply in_zrange. exact Hc.
Qed.

Lemma same_state_ok a b : 0 <= a < n -> 0 <= b < n -> same_state fa a b = Ok (sameb a b).
Proof.
  intros Ra Rb. unfold same_state. rewrite (shape_accepts _ _ _ _ _ _ a Sh Ra), (shape_accepts _ _ _ _ _ _ b Sh Rb). cbn [bind].
  unfold sameb. destruct (tok fa a =? tok fa b); cbn [negb andb]; [|reflexivity]. fold nc.
  assert (forall l acc0, (forall c, In c l -> 0 <= c < nc) ->
    foldM (fun (s : bool) symbol => ea <- tget fa a symbol ;; eb <- tget fa b symbol ;; Ok (s && (ea =? eb))) l acc0 =
    Ok (acc0 && forallb (fun c => cell fa a c =? cell fa b c) l)) as X.
  { induction l as [|c l IH]; intros acc0 H; cbn [foldM forallb]; [rewrite andb_true_r; reflexivity|].
    assert (0 <= c < k + (if det then 0 else 2)) as Hc by (rewrite <- Hnc; apply H; left; reflexivity).
    rewrite (shape_tget _ _ _ _ _ _ a c Sh Ra Hc), (shape_tget _ _ _ _ _ _ b c Sh Rb Hc). cbn [bind].
    rewrite IH by (intros; apply H; right; assumption). rewrite andb_assoc. reflexivity. }
  rewrite X by (intros c; apply in_zrange). reflexivity.
Qed.

Fixpoint findp (m : list (Z * Z)) (s : Z) : option Z :=
  match m with [] => None | (r, v) :: m => if sameb r s then Some v else findp m s end.

Lemma find_state_ok m s : 0 <= s < n -> (forall p, In p m -> 0 <= fst p < n) -> find_state fa m s = Ok (findp m s).
Proof.
  intros Rs. induction m as [|[r v] m IH]; intros H; cbn [find_state findp]; [reflexivity|].
  rewrite same_state_ok by (try exact Rs; apply (H (r, v)); left; reflexivity). cbn [bind].
  destruct (sameb r s); [reflexivity|]. apply IH. intros p Hp. apply H. right; exact Hp.
Qed.

(** the representatives found so far *)
Record reps_ok (reps : list Z) (i : Z) : Prop := {
  ro_range : forall r, In r reps -> 0 <= r < i;
  ro_cover : forall s, 0 <= s < i -> exists r, In r reps /\ same r s;
  ro_apart : forall a b r q, zget reps a = Ok r -> zget reps b = Ok q -> same r q -> a = b;
  ro_first : 0 < i -> zget reps 0 = Ok 0 }.

Lemma findp_spec reps : forall i0 s,
  match findp (combine reps (map (fun j => i0 + j) (zrange (zlen reps)))) s with
  | Some v => exists r, i0 <= v /\ zget reps (v - i0) = Ok r /\ same r s
  | None => forall r, In r reps -> ~ same r s
  end.
Proof.
  induction reps as [|x L IH]; intros i0 s.
  - cbn. tauto.
  - replace (map (fun j => i0 + j) (zrange (zlen (x :: L)))) with (i0 :: map (fun j => (i0 + 1) + j) (zrange (zlen L))).
    2:{ rewrite (zrange_split_0 (zlen (x :: L))) by (rewrite zlen_cons; pose proof (zlen_nonneg L); lia).
        cbn [map]. rewrite map_map. f_equal; [lia|]. rewrite zlen_cons. replace (zlen L + 1 - 1) with (zlen L) by lia.
        apply map_ext. intros; lia. }
    cbn [combine findp]. destruct (sameb x s) eqn:E.
    + exists x. split; [lia|]. replace (i0 - i0) with 0 by lia. split; [reflexivity|]. apply sameb_iff. exact E.
    + specialize (IH (i0 + 1) s). destruct (findp _ s) as [v|].
      * destruct IH as (r & Hv & G & Sm). exists r. split; [lia|]. split; [|exact Sm]. apply zget_ok in G as [_ G]. apply zget_ok. split; [lia|].
        replace (Z.to_nat (v - i0)) with (S (Z.to_nat (v - (i0 + 1)))) by lia. exact G.
      * intros r [<-|Hr]; [|auto]. rewrite <- sameb_iff. congruence.
Qed.

Definition pairs (reps : list Z) : list (Z * Z) := combine reps (zrange (zlen reps)).

Lemma pairs_find reps s :
  match findp (pairs reps) s with
  | Some v => exists r, zget reps v = Ok r /\ same r s
  | None => forall r, In r reps -> ~ same r s
  end.
Proof.
  pose proof (findp_spec reps 0 s) as X. replace (map (fun j => 0 + j) (zrange (zlen reps))) with (zrange (zlen reps)) in X.
  2:{ rewrite <- map_id at 1. apply map_ext. intros; lia. }
  unfold pairs. destruct (findp _ s) as [v|]; [|exact X]. destruct X as (r & _ & G & Sm). exists r. replace (v - 0) with v in G by lia. auto.
Qed.

Lemma pairs_snoc reps x : pairs (reps ++ [x]) = pairs reps ++ [(x, zlen reps)].
Proof.
  unfold pairs. rewrite zlen_snoc, zrange_succ by apply zlen_nonneg.
  assert (length reps = length (zrange (zlen reps))) as El by (rewrite zrange_length; unfold zlen; lia).
  revert El. generalize (zrange (zlen reps)). generalize (zlen reps). induction reps as [|y L IH]; intros v [|z Z0] El; try discriminate; cbn; [reflexivity|].
  f_equal. apply IH. injection El as El. exact El.
Qed.

Lemma pairs_fst reps p : In p (pairs reps) -> In (fst p) reps.
Proof. destruct p as [a b]. apply in_combine_l. Qed.

Lemma first_loop : exists reps,
  forM n ([], 0) (fun '(m, nsimple) state =>
    f <- find_state fa m state ;;
    match f with
    | Some _ => Ok (m, nsimple)
    | None => Ok (m ++ [(state, nsimple)], nsimple + 1)
    end) = Ok (pairs reps, zlen reps) /\ reps_ok reps n.
Proof.
  destruct (forM_invariant (fun i (st : list (Z * Z) * Z) => exists reps, st = (pairs reps, zlen reps) /\ reps_ok reps i) n ([], 0)
   (fun '(m, nsimple) state =>
    f <- find_state fa m state ;;
    match f with
    | Some _ => Ok (m, nsimple)
    | None => Ok (m ++ [(state, nsimple)], nsimple + 1)
    end)) as (st & E & reps & -> & R).
  - pose proof Hn. lia.
  - exists []. split; [reflexivity|]. constructor; [intros r [] | intros; lia | | intros; lia].
    intros a b r q G. apply zget_bounds in G. change (zlen (@nil Z)) with 0 in G. lia.
  - intros i st Ri (reps & -> & [R1 R2 R3 R4]).
    rewrite find_state_ok; [cbn [bind] | exact Ri | intros p Hp; apply pairs_fst, R1 in Hp; lia].
    pose proof (pairs_find reps i) as F. destruct (findp (pairs reps) i) as [v|].
    + destruct F as (r & G & Sm). eexists. split; [reflexivity|]. exists reps. split; [reflexivity|]. constructor.
      * intros q Hq. apply R1 in Hq. lia.
      * intros s Rs. destruct (Z.eq_dec s i) as [->|]; [exists r; split; [eapply zget_In; exact G | exact Sm] | apply R2; lia].
      * exact R3.
      * intros _. destruct (Z.eq_dec i 0) as [->|]; [|apply R4; lia]. exfalso. apply zget_In, R1 in G. lia.
    + eexists. split; [reflexivity|]. exists (reps ++ [i]). rewrite pairs_snoc, zlen_snoc. split; [reflexivity|].
      assert (forall a b q r, a < zlen reps -> zget (reps ++ [i]) a = Ok r -> ~ b < zlen reps -> zget (reps ++ [i]) b = Ok q -> same r q -> False) as X.
      { intros a b q r La Ga Lb Gb Sm. rewrite zget_app_l in Ga by lia. pose proof (zget_bounds _ _ _ Gb) as Rb. rewrite zlen_snoc in Rb.
        replace b with (zlen reps) in Gb by lia. rewrite zget_app_last in Gb. injection Gb as <-.
        apply (F r); [eapply zget_In; exact Ga | exact Sm]. }
      constructor.
      * intros r Hr. apply in_app_or in Hr as [Hr|[<-|[]]]; [apply R1 in Hr|]; lia.
      * intros s Rs. destruct (Z.eq_dec s i) as [->|].
        -- exists i. split; [apply in_or_app; right; left; reflexivity | apply same_refl].
        -- destruct (R2 s ltac:(lia)) as (r & Hr & Sm). exists r. split; [apply in_or_app; left; exact Hr | exact Sm].
      * intros a b r q Ga Gb Sm. pose proof (zget_bounds _ _ _ Ga) as Ba. pose proof (zget_bounds _ _ _ Gb) as Bb. rewrite zlen_snoc in Ba, Bb.
        destruct (Z_lt_dec a (zlen reps)) as [La|La]; destruct (Z_lt_dec b (zlen reps)) as [Lb|Lb].
        -- rewrite zget_app_l in Ga, Gb by lia. eapply R3; eassumption.
        -- exfalso. eapply X; [exact La | exact Ga | exact Lb | exact Gb | exact Sm].
        -- exfalso. eapply X; [exact Lb | exact Gb | exact La | exact Ga | apply same_sym; exact Sm].
        -- lia.
      * intros _. destruct (Z.eq_dec i 0) as [->|].
        -- assert (reps = []) as -> by (destruct reps as [|r reps]; [reflexivity | specialize (R1 r (or_introl eq_refl)); lia]). reflexivity.
        -- assert (zget reps 0 = Ok 0) as G by (apply R4; lia). rewrite zget_app_l; [exact G|]. apply zget_bounds in G. lia.
  - eauto.
Qed.

Lemma add_states m : 0 <= m -> forall out, shape out 0 k det (fun _ _ => -1) (fun _ => -1) ->
  exists out', forM m out (fun out _ => '(out, _) <- add_state out ;; Ok out) = Ok out' /\ shape out' m k det (fun _ _ => -1) (fun _ => -1).
Proof.
  intros Hm out H. pose proof Hnc as E1. pose proof Hnc0 as E2.
  apply (forM_invariant (fun i o => shape o i k det (fun _ _ => -1) (fun _ => -1))); [exact Hm | exact H|].
  intros i s Ri Hs. destruct (add_state_shape _ _ _ _ _ _ Hs) as (fa' & -> & S'); [lia|]. cbn [bind]. eexists. split; [reflexivity|].
  eapply shape_ext; [exact S'| |]; intros; cbn beta; destruct (_ =? _); reflexivity.
Qed.

(** what merging does: states are renamed so that exactly the equal ones get the same name *)
Record merged (h : Z -> Z) (ns : Z) (out : automaton) : Prop := {
  mg_range : forall s, 0 <= s < n -> 0 <= h s < ns;
  mg_onto : forall v, 0 <= v < ns -> exists s, 0 <= s < n /\ h s = v;
  mg_same : forall s t, 0 <= s < n -> 0 <= t < n -> (h s = h t <-> same s t);
  mg_zero : h 0 = 0;
  mg_shape : exists cf tf, shape out ns k det cf tf /\
     (forall s c, 0 <= s < n -> 0 <= c < nc -> cf (h s) c = if cell fa s c =? -1 then -1 else h (cell fa s c)) /\
     (forall s, 0 <= s < n -> tf (h s) = tok fa s) }.

Lemma simplify_once_ok : exists h ns out, simplify_once fa = Ok out /\ 0 < ns <= n /\ merged h ns out.
Proof.
  pose proof Hn as N0. pose proof Hnc as N1. pose proof Hnc0 as N2. unfold simplify_once.
  rewrite (shape_nstates _ _ _ _ _ _ Sh) by lia. cbn [bind].
  destruct first_loop as (reps & E & [R1 R2 R3 R4]). rewrite E. cbn [bind]. clear E.
  set (h := fun s => match findp (pairs reps) s with Some v => v | None => 0 end).
  assert (forall s, 0 <= s < n -> find_state fa (pairs reps) s = Ok (Some (h s)) /\ exists r, zget reps (h s) = Ok r /\ same r s) as Hh.
  { intros s Rs. rewrite find_state_ok; [|exact Rs | intros p Hp; apply pairs_fst, R1 in Hp; lia].
    unfold h. pose proof (pairs_find reps s) as F. destruct (findp (pairs reps) s) as [v|]; [split; [reflexivity | exact F]|].
    exfalso. destruct (R2 s Rs) as (r & Hr & Sm). exact (F r Hr Sm). }
  assert (forall s, 0 <= s < n -> 0 <= h s < zlen reps) as Hr.
  { intros s Rs. destruct (Hh s Rs) as [_ (r & G & _)]. eapply zget_bounds; exact G. }
  assert (forall s t, 0 <= s < n -> 0 <= t < n -> (h s = h t <-> same s t)) as Hs.
  { intros s t Rs Rt. destruct (Hh s Rs) as [_ (r & G & Sm)]. destruct (Hh t Rt) as [_ (q & G' & Sm')]. split.
    - intros E. rewrite E in G. rewrite G in G'. injection G' as ->. eapply same_trans; [apply same_sym; exact Sm | exact Sm'].
    - intros St. eapply R3; [exact G | exact G'|]. eapply same_trans; [exact Sm|]. eapply same_trans; [exact St | apply same_sym; exact Sm']. }
  assert (forall v, 0 <= v < zlen reps -> exists s, 0 <= s < n /\ h s = v) as Ho.
  { intros v Rv. destruct (zget_in_range reps v Rv) as [r G]. exists r. assert (0 <= r < n) as Rr by (apply R1; eapply zget_In; exact G).
    split; [exact Rr|]. destruct (Hh r Rr) as [_ (q & G' & Sm)]. eapply R3; eassumption. }
  assert (h 0 = 0) as H0.
  { destruct (Hh 0 ltac:(lia)) as [_ (q & G' & Sm)]. eapply R3; [exact G' | apply R4; exact N0 | exact Sm]. }
  assert (zlen reps <= n) as Le.
  { rewrite <- (zlen_zrange n) by lia. unfold zlen. apply Nat2Z.inj_le. apply NoDup_incl_length; [|intros r X; apply in_zrange; auto].
    apply NoDup_nth_error. intros i j Li Ej. destruct (nth_error reps i) as [r|] eqn:Gi; [|apply nth_error_None in Gi; lia].
    symmetry in Ej. apply zget_nat in Gi, Ej. assert (Z.of_nat i = Z.of_nat j) by (eapply R3; [exact Gi | exact Ej | apply same_refl]). lia. }
  assert (0 < zlen reps) as Pos by (specialize (Hr 0 ltac:(lia)); lia).
  destruct (new_shape k det) as (o0 & E0 & S0); [lia|]. change (get_nsymbols fa) with k. change (is_deterministic fa) with det. rewrite E0. cbn [bind].
  destruct (add_states (zlen reps) ltac:(lia) o0 S0) as (o1 & E1 & S1). rewrite E1. cbn [bind]. clear E0 E1 S0 o0.
  set (ns := zlen reps) in *.
  set (g := fun s c => if cell fa s c =? -1 then -1 else h (cell fa s c)).
  assert (forall s t c, 0 <= s < n -> 0 <= t < n -> h s = h t -> 0 <= c < nc -> g s c = g t c) as Hg.
  { intros s t c Rs Rt E Hc. apply Hs in E as [_ E]; try assumption. unfold g. rewrite E by exact Hc. reflexivity. }
  match goal with |- context[forM n (o1, ?d) ?f] =>
    destruct (forM_invariant (fun i (st : automaton * list bool) => exists cf tf did,
      snd st = did /\ shape (fst st) ns k det cf tf /\ zlen did = ns /\
      (forall v, 0 <= v < ns -> zget did v = Ok true -> exists s, 0 <= s < n /\ h s = v /\ (forall c, 0 <= c < nc -> cf v c = g s c) /\ tf v = tok fa s) /\
      (forall v, 0 <= v < ns -> zget did v = Ok false -> (forall c, 0 <= c < nc -> cf v c = -1) /\ tf v = -1) /\
      (forall s, 0 <= s < i -> zget did (h s) = Ok true)) n (o1, d) f) as (st & E & cf & tf & did & D & S2 & L2 & T2 & F2 & A2)
  end.
  - lia.
  - exists (fun _ _ => -1), (fun _ => -1), (repeat false (Z.to_nat ns)). cbn [fst snd]. split; [reflexivity|]. split; [exact S1|].
    split; [unfold zlen; rewrite repeat_length; lia|]. split; [|split; [auto | intros; lia]].
    intros v Rv G. apply zget_In, repeat_spec in G. discriminate.
  - intros i [out did] Ri (cf & tf & did' & D & S2 & L2 & T2 & F2 & A2). cbn [fst snd] in D, S2. subst did'.
    destruct (Hh i Ri) as [Ef (r & Gr & Sr)]. rewrite Ef. cbn [bind].
    pose proof (Hr i Ri) as Rhi. destruct (zget_in_range did (h i) ltac:(lia)) as [b Gb].
    pose proof Gb as Vb. apply vget_zget in Vb. rewrite Vb. cbn [bind]. destruct b.
    + eexists. split; [reflexivity|]. exists cf, tf, did. cbn [fst snd]. split; [reflexivity|]. split; [exact S2|]. split; [exact L2|].
      split; [exact T2|]. split; [exact F2|]. intros s Rs. destruct (Z.eq_dec s i) as [->|]; [exact Gb | apply A2; lia].
    + destruct (F2 (h i) Rhi Gb) as [Fc Ft].
      match goal with |- context[forM (ncols fa) out ?f] =>
        destruct (forM_invariant (fun j o => shape o ns k det (fun v c => if (v =? h i) && (c <? j) then g i c else cf v c) tf) (ncols fa) out f) as (out' & E' & S')
      end.
      * unfold nc in N2. lia.
      * eapply shape_ext; [exact S2| |reflexivity]. intros s c Hs1 Hc. destruct (Z.ltb_spec c 0); [lia|]. rewrite andb_false_r. reflexivity.
      * intros j o Rj So. rewrite (shape_step _ _ _ _ _ _ i j Sh Ri) by (rewrite <- N1; exact Rj). cbn [bind].
        assert (forall cf', (forall v c, 0 <= v < ns -> 0 <= c < nc -> cf' v c = if (v =? h i) && (c =? j) then g i j else if (v =? h i) && (c <? j) then g i c else cf v c) ->
                 forall v c, 0 <= v < ns -> 0 <= c < nc -> cf' v c = if (v =? h i) && (c <? j + 1) then g i c else cf v c) as Up.
        { intros cf' X v c Rv Rc. rewrite X by assumption. destruct (v =? h i); cbn [andb]; [|reflexivity].
          destruct (Z.eqb_spec c j) as [->|]; destruct (Z.ltb_spec j (j + 1)); try lia; try reflexivity.
          destruct (Z.ltb_spec c j); destruct (Z.ltb_spec c (j + 1)); try lia; reflexivity. }
        pose proof (cell_range fa i j W) as Rc. fold n in Rc.
        destruct (Z.eqb_spec (cell fa i j) (-1)) as [Ec|Ec].
        -- eexists. split; [reflexivity|]. eapply shape_ext; [exact So| |reflexivity]. rewrite <- N1. apply Up.
           intros v c Rv Rc'. destruct (Z.eqb_spec v (h i)) as [->|]; cbn [andb]; [|reflexivity]. destruct (Z.eqb_spec c j) as [->|]; [|reflexivity].
           destruct (Z.ltb_spec j j); [lia|]. rewrite Fc by exact Rc'. unfold g. rewrite Ec. reflexivity.
        -- destruct (Hh (cell fa i j) ltac:(lia)) as [Eg _]. rewrite Eg. cbn [bind].
           destruct (add_transition_shape _ _ _ _ _ _ (h i) j (h (cell fa i j)) So) as (o' & E' & S').
           { exact Rhi. } { rewrite <- N1; exact Rj. } { apply Hr; lia. }
           { cbn beta. destruct (Z.ltb_spec j j); [lia|]. rewrite andb_false_r. apply Fc. exact Rj. }
           exists o'. split; [exact E'|]. eapply shape_ext; [exact S'| |reflexivity]. rewrite <- N1. apply Up.
           intros v c Rv Rc'. cbn beta. destruct ((v =? h i) && (c =? j)); [|reflexivity]. unfold g. destruct (Z.eqb_spec (cell fa i j) (-1)); [congruence | reflexivity].
      * rewrite E'. cbn [bind]. rewrite (shape_accepts _ _ _ _ _ _ i Sh Ri). cbn [bind].
        assert (exists out2 tf2, (if tok fa i =? -1 then Ok out' else add_accept out' (h i) (tok fa i)) = Ok out2 /\
          shape out2 ns k det (fun v c => if v =? h i then g i c else cf v c) tf2 /\
          forall v, 0 <= v < ns -> tf2 v = if v =? h i then tok fa i else tf v) as (out2 & tf2 & E2 & S3 & T3).
        { assert (shape out' ns k det (fun v c => if v =? h i then g i c else cf v c) tf) as S''.
          { eapply shape_ext; [exact S'| |reflexivity]. intros s c Hs1 Hc. cbn beta. rewrite <- N1 in Hc. unfold nc in Hc.
            destruct (Z.ltb_spec c (ncols fa)); [|lia]. rewrite andb_true_r. reflexivity. }
          pose proof (tok_range fa i W) as Rt. destruct (Z.eqb_spec (tok fa i) (-1)) as [Et|Et].
          - exists out', tf. split; [reflexivity|]. split; [exact S''|]. intros v Rv. destruct (Z.eqb_spec v (h i)) as [->|]; [congruence | reflexivity].
          - destruct (add_accept_shape _ _ _ _ _ _ (h i) (tok fa i) S'') as (o2 & -> & X); [exact Rhi | lia|].
            eexists. eexists. split; [reflexivity|]. split; [exact X|]. reflexivity. }
        rewrite E2. cbn [bind]. unfold vset. destruct (zset_in_range did (h i) true ltac:(lia)) as [did2 Ed].
        destruct (Z.leb_spec 0 (h i)); [|lia]. destruct (Z.ltb_spec (h i) (zlen did)); [|lia]. cbn [andb check bind]. rewrite Ed. cbn [bind]. eexists. split; [reflexivity|]. eexists. exists tf2, did2. cbn [fst snd]. split; [reflexivity|].
        split; [exact S3|]. split; [rewrite (zset_zlen _ _ _ _ Ed); exact L2|].
        assert (forall v, v <> h i -> zget did2 v = zget did v) as Ne by (intros v Hv; eapply zset_get_ne; [exact Ed | congruence]).
        assert (zget did2 (h i) = Ok true) as Eq by (eapply zset_get_eq; exact Ed).
        split; [|split].
        -- intros v Rv G. destruct (Z.eq_dec v (h i)) as [->|Nv].
           ++ exists i. split; [exact Ri|]. split; [reflexivity|]. rewrite T3 by exact Rv. rewrite Z.eqb_refl. split; [reflexivity | reflexivity].
           ++ rewrite Ne in G by exact Nv. destruct (T2 v Rv G) as (s & Rs & Es & Cs & Ts). exists s. split; [exact Rs|]. split; [exact Es|].
              rewrite T3 by exact Rv. destruct (Z.eqb_spec v (h i)); [congruence|]. auto.
        -- intros v Rv G. destruct (Z.eq_dec v (h i)) as [->|Nv]; [congruence|]. rewrite Ne in G by exact Nv.
           rewrite T3 by exact Rv. destruct (Z.eqb_spec v (h i)); [congruence|]. apply F2; assumption.
        -- intros s Rs. destruct (Z.eq_dec (h s) (h i)) as [->|Nv]; [exact Eq|]. rewrite Ne by exact Nv. apply A2.
           destruct (Z.eq_dec s i) as [->|]; [congruence | lia].
  - destruct st as [out did']. cbn [fst snd] in D, S2. subst did'. rewrite E. cbn [bind].
    exists h, ns, out. split; [reflexivity|]. split; [lia|]. constructor; [exact Hr | exact Ho | exact Hs | exact H0|].
    exists cf, tf. split; [exact S2|]. split.
    + intros s c Rs Rc. destruct (T2 (h s) (Hr s Rs) (A2 s Rs)) as (s' & Rs' & Es & Cs & _). rewrite Cs by exact Rc.
      change (g s' c = g s c). apply Hg; assumption.
    + intros s Rs. destruct (T2 (h s) (Hr s Rs) (A2 s Rs)) as (s' & Rs' & Es & _ & Ts). rewrite Ts. apply Hs in Es as [Es _]; assumption.
Qed.

Section Merged.
Variables (h : Z -> Z) (ns : Z) (out : automaton).
Hypothesis M : merged h ns out.

Lemma merged_facts : well_formed out /\ zlen (table out) = ns /\ get_nsymbols out = k /\ is_deterministic out = det /\
  (forall s c, 0 <= s < n -> 0 <= c < nc -> cell out (h s) c = if cell fa s c =? -1 then -1 else h (cell fa s c)) /\
  (forall s, 0 <= s < n -> tok out (h s) = tok fa s).
Proof.
  destruct M as [M1 M2 M3 M4 (cf & tf & Sm & Mc & Mt)]. pose proof Hn as N0. pose proof Hnc as N1. pose proof Hnc0 as N2. pose proof Hk as N3.
  assert (0 < ns) as Np by (specialize (M1 0 ltac:(lia)); lia).
  split.
  { apply (shape_well_formed _ _ _ _ _ _ Sm). split; [exact Np|]. split; [exact N3|]. split; [lia|]. split.
    - intros v c Rv Rc. rewrite <- N1 in Rc. destruct (M2 v Rv) as (s & Rs & <-). rewrite Mc by assumption.
      destruct (Z.eqb_spec (cell fa s c) (-1)); [lia|]. pose proof (cell_range fa s c W) as R. fold n in R. specialize (M1 (cell fa s c) ltac:(lia)). lia.
    - intros v Rv. destruct (M2 v Rv) as (s & Rs & <-). rewrite Mt by assumption. pose proof (tok_range fa s W). lia. }
  split; [exact (sh_n _ _ _ _ _ _ Sm)|]. split; [exact (shape_nsym _ _ _ _ _ _ Sm)|]. split; [exact (sh_det _ _ _ _ _ _ Sm)|]. split.
  - intros s c Rs Rc. rewrite (sh_cell _ _ _ _ _ _ Sm); [apply Mc; assumption | apply M1; assumption|].
    rewrite (sh_nc _ _ _ _ _ _ Sm), <- N1. exact Rc.
  - intros s Rs. rewrite (sh_tok _ _ _ _ _ _ Sm); [apply Mt; assumption | apply M1; assumption].
Qed.

Lemma merged_run w : over fa w -> forall s, 0 <= s < n -> run out (h s) w = run fa s w.
Proof.
  destruct merged_facts as (Wo & Zo & Ko & Do & Co & To). pose proof (mg_range _ _ _ M) as M1.
  pose proof (well_formed_shape out Wo) as So. rewrite Zo, Ko, Do in So. pose proof Hnc as N1.
  induction w as [|x w IH]; intros Ov s Rs; cbn [run].
  - rewrite (shape_accepts _ _ _ _ _ _ (h s) So (M1 s Rs)), (shape_accepts _ _ _ _ _ _ s Sh Rs). rewrite To by exact Rs. reflexivity.
  - assert (0 <= x < k) as Rx by (apply Ov; left; reflexivity).
    assert (0 <= x < k + (if det then 0 else 2)) as Rx' by (destruct det; lia).
    rewrite (shape_step _ _ _ _ _ _ (h s) x So (M1 s Rs) Rx'), (shape_step _ _ _ _ _ _ s x Sh Rs Rx'). cbn [bind].
    rewrite Co by (try exact Rs; rewrite N1; exact Rx'). pose proof (cell_range fa s x W) as R. fold n in R.
    destruct (Z.eqb_spec (cell fa s x) (-1)); [reflexivity|]. specialize (M1 (cell fa s x) ltac:(lia)).
    destruct (Z.eqb_spec (h (cell fa s x)) (-1)); [lia|]. apply IH; [intros y Hy; apply Ov; right; exact Hy | lia].
Qed.

Local Lemma edge_col a (Wa : well_formed a) (Ka : get_nsymbols a = k) (Da : is_deterministic a = det) s l t :
  edge a s l t -> exists c, 0 <= c < nc /\ cell a s c = t /\ t <> -1 /\
     match l with Some x => c = x /\ 0 <= x < k | None => c = k \/ c = k + 1 end.
Proof.
  intros E. pose proof Hnc as N1. assert (ncols a = nc) as Na by (rewrite N1, (sh_nc _ _ _ _ _ _ (well_formed_shape a Wa)), Ka, Da; reflexivity).
  destruct E as [Nt E]. rewrite Ka in E. destruct l as [x|].
  - destruct E as [Rx E]. exists x. split; [|auto]. destruct det; lia.
  - destruct E as [E|E]; [exists k | exists (k + 1)]; (split; [|auto]); destruct (cell_out a s _ Wa ltac:(rewrite E; exact Nt)) as [_ X]; rewrite <- Na; exact X.
Qed.

Local Lemma col_edge a (Ka : get_nsymbols a = k) s l t c :
  cell a s c = t -> t <> -1 -> match l with Some x => c = x /\ 0 <= x < k | None => c = k \/ c = k + 1 end -> edge a s l t.
Proof.
  intros E Nt H. split; [exact Nt|]. rewrite Ka. destruct l as [x|]; [destruct H as [-> H]; auto|]. destruct H as [-> | ->]; auto.
Qed.

Lemma merged_recognises w tk : recognises out w tk <-> recognises fa w tk.
Proof.
  destruct merged_facts as (Wo & Zo & Ko & Do & Co & To). pose proof (mg_range _ _ _ M) as M1. pose proof Hn as N0.
  rewrite (recognises_iff out) by exact Wo. rewrite (recognises_iff fa) by exact W. split.
  - intros (v & P & T & N).
    assert (forall v w u, epath (edge out) v w u -> forall s, 0 <= s < n -> h s = v -> exists t, 0 <= t < n /\ h t = u /\ epath (edge fa) s w t) as X.
    { induction 1 as [v0|v0 l u0 w0 u1 He _ IH]; intros s Rs Es.
      - exists s. split; [exact Rs|]. split; [exact Es | constructor].
      - apply (edge_col out Wo Ko Do) in He as (c & Rc & Ec & Nu & Hl). subst v0. rewrite Co in Ec by assumption.
        destruct (Z.eqb_spec (cell fa s c) (-1)) as [Ex|Ex]; [congruence|]. pose proof (cell_range fa s c W) as R. fold n in R.
        destruct (IH (cell fa s c) ltac:(lia) Ec) as (t & Rt & Et & Pt). exists t. split; [exact Rt|]. split; [exact Et|].
        apply (epath_move (edge fa) s l (cell fa s c) w0 t); [|exact Pt]. eapply col_edge; [reflexivity | reflexivity | exact Ex | exact Hl]. }
    destruct (X 0 w v P 0 ltac:(lia) (mg_zero _ _ _ M)) as (t & Rt & Et & Pt). exists t. split; [exact Pt|]. split; [|exact N].
    rewrite <- T, <- Et. symmetry. apply To. exact Rt.
  - intros (u & P & T & N).
    assert (forall s w u, epath (edge fa) s w u -> 0 <= s < n -> 0 <= u < n /\ epath (edge out) (h s) w (h u)) as X.
    { induction 1 as [s|s l t w0 u1 He _ IH]; intros Rs.
      - split; [exact Rs | constructor].
      - pose proof (edge_range fa s l t W He) as [_ Rt]. fold n in Rt. destruct (IH Rt) as [Ru P0]. split; [exact Ru|].
        apply (edge_col fa W eq_refl eq_refl) in He as (c & Rc & Ec & Nu & Hl).
        apply (epath_move (edge out) (h s) l (h t) w0 (h u1)); [|exact P0].
        apply (col_edge out Ko _ _ _ c); [|specialize (M1 t Rt); lia | exact Hl]. rewrite Co by assumption. rewrite Ec.
        destruct (Z.eqb_spec t (-1)); [contradiction | reflexivity]. }
    destruct (X 0 w u P ltac:(lia)) as [Ru P0]. rewrite (mg_zero _ _ _ M) in P0. exists (h u). split; [exact P0|]. split; [|exact N].
    rewrite To by exact Ru. exact T.
Qed.

(** when no state was merged the result has no two equal states *)
Lemma merged_apart : ns = n -> forall v u, 0 <= v < ns -> 0 <= u < ns ->
  tok out v = tok out u -> (forall c, 0 <= c < nc -> cell out v c = cell out u c) -> v = u.
Proof.
  intros Eq. destruct merged_facts as (Wo & Zo & Ko & Do & Co & To). destruct M as [M1 M2 M3 M4 _].
  assert (forall s t, 0 <= s < n -> 0 <= t < n -> h s = h t -> s = t) as Inj.
  { (* a map of a finite range onto a range of the same size is injective *)
    assert (NoDup (map h (zrange n))) as Nd.
    { apply (@NoDup_incl_NoDup Z (zrange ns)).
      - apply zrange_NoDup.
      - rewrite map_length, !zrange_length. lia.
      - intros v Hv. apply in_zrange in Hv. destruct (M2 v Hv) as (s & Rs & <-). apply in_map. apply in_zrange. exact Rs. }
    intros s t Rs Rt E. rewrite NoDup_nth_error in Nd.
    assert (forall i, 0 <= i < n -> nth_error (map h (zrange n)) (Z.to_nat i) = Some (h i)) as Nth.
    { intros i Ri. rewrite nth_error_map. rewrite zrange_nth by lia. cbn. f_equal. f_equal. lia. }
    assert (Z.to_nat s = Z.to_nat t); [|lia]. apply Nd; [rewrite map_length, zrange_length; lia|]. rewrite !Nth by assumption. congruence. }
  intros v u Rv Ru Et Ec. destruct (M2 v Rv) as (s & Rs & <-). destruct (M2 u Ru) as (t & Rt & <-). apply M3; [exact Rs | exact Rt|].
  rewrite !To in Et by assumption. split; [exact Et|]. intros c Hc. specialize (Ec c Hc). rewrite !Co in Ec by assumption.
  pose proof (cell_range fa s c W) as R1. pose proof (cell_range fa t c W) as R2. fold n in R1, R2.
  destruct (Z.eqb_spec (cell fa s c) (-1)) as [E1|E1]; destruct (Z.eqb_spec (cell fa t c) (-1)) as [E2|E2].
  - congruence.
  - specialize (M1 (cell fa t c) ltac:(lia)). lia.
  - specialize (M1 (cell fa s c) ltac:(lia)). lia.
  - apply Inj; [lia | lia | exact Ec].
Qed.
End Merged.
End Once.

Lemma apart_cells fa : well_formed fa ->
  (forall v u, 0 <= v < zlen (table fa) -> 0 <= u < zlen (table fa) -> tok fa v = tok fa u ->
     (forall c, 0 <= c < ncols fa -> cell fa v c = cell fa u c) -> v = u) -> apart fa.
Proof.
  intros W H s t Rs Rt Ea Es. pose proof (well_formed_shape fa W) as Sh. apply H; [exact Rs | exact Rt| |].
  - rewrite (shape_accepts _ _ _ _ _ _ s Sh Rs), (shape_accepts _ _ _ _ _ _ t Sh Rt) in Ea. congruence.
  - intros c Rc. rewrite (sh_nc _ _ _ _ _ _ Sh) in Rc. specialize (Es c).
    rewrite (shape_step _ _ _ _ _ _ s c Sh Rs Rc), (shape_step _ _ _ _ _ _ t c Sh Rt Rc) in Es. congruence.
Qed.

Lemma simplify_loop_ok : forall fuel fa, well_formed fa -> (length (table fa) < fuel)%nat ->
  exists out, simplify_loop fuel fa (zlen (table fa)) = Ok out /\ well_formed out /\
  get_nsymbols out = get_nsymbols fa /\ is_deterministic out = is_deterministic fa /\ zlen (table out) <= zlen (table fa) /\
  (forall w tk, recognises out w tk <-> recognises fa w tk) /\
  (forall w, over fa w -> run out 0 w = run fa 0 w) /\ apart out.
Proof.
  induction fuel as [|fuel IH]; intros fa W F; [lia|]. cbn [simplify_loop].
  destruct (simplify_once_ok fa W) as (h & ns & o & -> & Rn & M). cbn [bind].
  destruct (merged_facts fa W h ns o M) as (Wo & Zo & Ko & Do & Co & To).
  pose proof (merged_recognises fa W h ns o M) as Rec. 
  assert (forall w, over fa w -> run o 0 w = run fa 0 w) as Run.
  { intros w Ov. rewrite <- (mg_zero _ _ _ _ M) at 1. apply (merged_run fa W h ns o M w Ov). lia. }
  pose proof (well_formed_good o Wo) as (_ & _ & Pc & _).
  rewrite (shape_nstates _ _ _ _ _ _ (well_formed_shape o Wo) Pc). cbn [bind].
  destruct (Z.ltb_spec (zlen (table o)) (zlen (table fa))) as [Lt|Ge].
  - destruct (IH o Wo) as (out & E & W' & K' & D' & L' & R' & U' & A'); [unfold zlen in Lt; lia|].
    exists out. split; [exact E|]. split; [exact W'|]. split; [congruence|]. split; [congruence|]. split; [lia|].
    split; [intros w tk; rewrite R'; apply Rec|]. split; [|exact A'].
    intros w Ov. rewrite U' by (unfold over in *; rewrite Ko; exact Ov). apply Run. exact Ov.
  - exists o. split; [reflexivity|]. split; [exact Wo|]. split; [exact Ko|]. split; [exact Do|]. split; [lia|].
    split; [exact Rec|]. split; [exact Run|]. apply apart_cells; [exact Wo|]. rewrite Zo.
    intros v u Rv Ru Et Ec. eapply (merged_apart fa W h ns o M); [lia | exact Rv | exact Ru | exact Et|].
    intros c Hc. apply Ec. rewrite (sh_nc _ _ _ _ _ _ (well_formed_shape o Wo)), Ko, Do.
    rewrite <- (sh_nc _ _ _ _ _ _ (well_formed_shape fa W)). exact Hc.
Qed.

Lemma simplify_correct fa : well_formed fa ->
  exists out, simplify fa = Ok out /\ well_formed out /\
  get_nsymbols out = get_nsymbols fa /\ is_deterministic out = is_deterministic fa /\ zlen (table out) <= zlen (table fa) /\
  (forall w tk, recognises out w tk <-> recognises fa w tk) /\
  (forall w, over fa w -> run out 0 w = run fa 0 w) /\ apart out.
Proof.
  intros W. unfold simplify. pose proof (well_formed_good fa W) as (_ & _ & Pc & _).
  rewrite (shape_nstates _ _ _ _ _ _ (well_formed_shape fa W) Pc). cbn [bind]. apply simplify_loop_ok; [exact W | lia].
Qed.
