(** Proofs about the cached quantities. *)
From Coq Require Import String.
From Verif Require Import Prelude M_Tags S_Tags P_Tags.
Local Open Scope Z_scope.

Section caches.
Variables fl fq fs : measurer.

Definition input (m : tmesh) (n : list Z) : option tag := find_tag (tags_at m 0) n.
Lemma measured_same u f m m' : valid m -> valid m' -> alike m m' ->
  input m' (name_of "coordinates") = input m (name_of "coordinates") -> (u = true -> input m' (name_of "metric") = input m (name_of "metric")) -> measured u f m' = measured u f m.
Proof.
  intros V V' [A1 A2] C M. assert (G : forall n, input m' n = input m n -> get_array m' OMEGA_H_F64 VERT n = get_array m OMEGA_H_F64 VERT n).
  { intros n E. unfold get_array, get_tagbase, VERT. pose proof V as (D & _). pose proof V' as (D' & _).
    assert (Ck : check_dim2 m' 0 = check_dim2 m 0).
    { unfold check_dim2. rewrite !check_dim_ok, !has_ents_ok by (auto; lia). unfold nents_at. rewrite A2. reflexivity. }
    rewrite Ck, !tags_at_ok by (auto; lia). destruct (check_dim2 m 0) as [[]| |]; [|reflexivity|reflexivity]. cbn [bind]. unfold input in E. rewrite E. reflexivity. }
  unfold measured, metric_of, coordinates_of. rewrite (G _ C). destruct u; [|reflexivity]. rewrite (G _ (M eq_refl)). reflexivity.
Qed.

Definition cached (u : bool) (f : measurer) (m : tmesh) (d : Z) (n : list Z) : Prop :=
  forall t, find_tag (tags_at m d) n = Some t -> tag_type t = OMEGA_H_F64 /\ exists v, tag_array t = Some v /\ measured u f m = Ok v.
Definition fresh (m : tmesh) : Prop :=
  cached true fl m 1 (name_of "length") /\ cached true fq m (t_dim m) (name_of "quality") /\ cached false fs m (t_dim m) (name_of "size").

(** an operation that is honest keeps a cache fresh *)
Lemma cached_step u f m o m' d n : valid m -> run_op m o = Ok m' -> honest (t_dim m) o = true -> is_cache (t_dim m) d n = true ->
  derived (t_dim m) (name_of "coordinates") d n = true -> (u = true -> derived (t_dim m) (name_of "metric") d n = true) ->
  cached u f m d n -> cached u f m' d n.
Proof.
  intros V E H K DC DM C t F. destruct (op_effect m o m' V E) as (A & V' & Sh & _). pose proof (Sh d n) as S1. pose proof (Sh 0 (name_of "coordinates")) as Sc. pose proof (Sh 0 (name_of "metric")) as Sm.
  pose proof V as (V1 & _).
  (* the effect on the cache is Nothing, and then the inputs it depends on are unchanged *)
  assert (Key : effect_of (t_dim m) o d n = Nothing).
  { destruct (effect_of (t_dim m) o d n) as [ty a| |] eqn:Ef; [|cbn in S1; congruence|reflexivity]. exfalso. destruct o as [ty' d' n' nc a' i|ty' d' n' a' i|d' n']; cbn [effect_of] in Ef.
    - destruct ((d' =? d) && same_name n' n) eqn:Es; [|destruct (negb i && (d' =? 0) && derived (t_dim m) n' d n); discriminate]. apply andb_true_iff in Es as [E1 E2]. apply Z.eqb_eq in E1. apply same_name_spec in E2. subst. cbn [honest] in H. rewrite K in H. discriminate.
    - destruct ((d' =? d) && same_name n' n) eqn:Es; [|destruct (negb i && (d' =? 0) && derived (t_dim m) n' d n); discriminate]. apply andb_true_iff in Es as [E1 E2]. apply Z.eqb_eq in E1. apply same_name_spec in E2. subst. cbn [honest] in H. rewrite K in H. discriminate.
    - destruct ((d' =? d) && same_name n' n); discriminate. }
  rewrite Key in S1. cbn [shows] in S1. rewrite S1 in F. destruct (C t F) as (Ty & v & Av & Mv). split; [exact Ty|]. exists v. split; [exact Av|].
  assert (In_ : forall x, (x = name_of "coordinates" \/ (u = true /\ x = name_of "metric")) -> effect_of (t_dim m) o 0 x = Nothing).
  { intros x Hx. assert (Dx : derived (t_dim m) x d n = true) by (destruct Hx as [->|[Hu ->]]; auto).
    assert (Ix : is_input 0 x = true) by (unfold is_input; destruct Hx as [->|[_ ->]]; rewrite same_name_refl; cbn; try rewrite orb_true_r; reflexivity).
    assert (Nv : forall y, derived (t_dim m) y 0 x = false) by (intros y; apply derived_not_vert; lia).
    destruct o as [ty' d' n' nc a' i|ty' d' n' a' i|d' n']; cbn [effect_of] in Key |- *.
    - rewrite Nv, andb_false_r. destruct ((d' =? 0) && same_name n' x) eqn:Es; [|reflexivity]. apply andb_true_iff in Es as [E1 E2]. apply Z.eqb_eq in E1. apply same_name_spec in E2. subst d' n'.
      exfalso. cbn [honest] in H. apply andb_true_iff in H as [_ H]. rewrite Ix in H. cbn [negb orb] in H. rewrite H, Dx in Key. cbn [andb] in Key. rewrite Z.eqb_refl in Key. destruct ((0 =? d) && same_name x n); discriminate.
    - rewrite Nv, andb_false_r. destruct ((d' =? 0) && same_name n' x) eqn:Es; [|reflexivity]. apply andb_true_iff in Es as [E1 E2]. apply Z.eqb_eq in E1. apply same_name_spec in E2. subst d' n'.
      exfalso. cbn [honest] in H. apply andb_true_iff in H as [_ H]. rewrite Ix in H. cbn [negb orb] in H. rewrite H, Dx in Key. cbn [andb] in Key. rewrite Z.eqb_refl in Key. destruct ((0 =? d) && same_name x n); discriminate.
    - destruct ((d' =? 0) && same_name n' x) eqn:Es; [|reflexivity]. apply andb_true_iff in Es as [E1 E2]. apply Z.eqb_eq in E1. apply same_name_spec in E2. subst d' n'.
      exfalso. cbn [honest] in H. rewrite Ix in H. discriminate. }
  rewrite (measured_same u f m m' V V' A); [exact Mv| |].
  - rewrite (In_ _ (or_introl eq_refl)) in Sc. exact Sc.
  - intros Hu. rewrite (In_ _ (or_intror (conj Hu eq_refl))) in Sm. exact Sm.
Qed.
Lemma dim_eqb m : (t_dim m =? t_dim m) = true. Proof. apply Z.eqb_refl. Qed.
Lemma fresh_op m o m' : valid m -> run_op m o = Ok m' -> honest (t_dim m) o = true -> fresh m -> fresh m'.
Proof.
  intros V E H (C1 & C2 & C3). destruct (op_effect m o m' V E) as ((A & _) & _). unfold fresh. rewrite A.
  assert (MC : same_name (name_of "metric") (name_of "coordinates") = false) by (vm_compute; reflexivity).
  split; [|split]; (eapply cached_step; [exact V|exact E|exact H| | | |assumption]); try (intros Hu; try discriminate Hu); unfold is_cache, derived;
    rewrite ?MC, ?same_name_refl, ?Z.eqb_refl; cbn [andb orb]; rewrite ?orb_true_r; try reflexivity; rewrite <- ?orb_assoc; cbn [orb]; rewrite ?orb_true_r; reflexivity.
Qed.

Lemma name_ne a b : same_name a b = false -> same_name b a = false.
Proof. rewrite same_name_sym. auto. Qed.
(** storing a measured cache *)
Lemma fresh_ask_ u f n d m m' v : valid m -> 1 <= d -> fresh m -> measured u f m = Ok v -> add_tag m OMEGA_H_F64 d n 1 (Some v) false = Ok m' ->
  ((d = 1 /\ n = name_of "length" /\ u = true /\ f = fl) \/ (d = t_dim m /\ n = name_of "quality" /\ u = true /\ f = fq) \/ (d = t_dim m /\ n = name_of "size" /\ u = false /\ f = fs)) ->
  alike m m' /\ valid m' /\ fresh m' /\ measured u f m' = Ok v /\ get_array m' OMEGA_H_F64 d n = Ok (Some v).
Proof.
  intros V D F M E W. destruct (add_effect m OMEGA_H_F64 d n 1 (Some v) false m' V E) as (A & V' & Sh & _). destruct (add_inv m OMEGA_H_F64 d n 1 (Some v) false m' V E) as (B & N & _).
  assert (D0 : (d =? 0) = false) by (apply Z.eqb_neq; lia).
  assert (Sh' : forall d' n', if (d =? d') && same_name n n' then exists t, find_tag (tags_at m' d') n' = Some t /\ tag_type t = OMEGA_H_F64 /\ tag_array t = Some v else find_tag (tags_at m' d') n' = find_tag (tags_at m d') n').
  { intros d' n'. specialize (Sh d' n'). cbn [effect_of] in Sh. rewrite D0 in Sh. cbn [negb andb] in Sh. destruct ((d =? d') && same_name n n'); exact Sh. }
  assert (Same : forall u' f', measured u' f' m' = measured u' f' m).
  { intros u' f'. apply measured_same; auto; unfold input; [|intros _]; match goal with |- find_tag (tags_at m' 0) ?x = _ => specialize (Sh' 0 x); rewrite D0 in Sh'; exact Sh' end. }
  split; [exact A|]. split; [exact V'|]. pose proof A as [A1 A2]. split; [|split].
  - assert (Each : forall u' f' d' n', cached u' f' m d' n' -> (((d =? d') && same_name n n') = true -> u' = u /\ f' = f) -> cached u' f' m' d' n').
    { intros u' f' d' n' C K t Ft. specialize (Sh' d' n'). destruct ((d =? d') && same_name n n').
      - destruct Sh' as (t' & F' & Ty & Ar). rewrite Ft in F'. inversion F'; subst t'. split; [exact Ty|]. exists v. split; [exact Ar|]. destruct (K eq_refl) as [-> ->]. rewrite Same. exact M.
      - rewrite Sh' in Ft. destruct (C t Ft) as (Ty & w & Aw & Mw). split; [exact Ty|]. exists w. rewrite Same. auto. }
    destruct F as (F1 & F2 & F3). unfold fresh. rewrite A1. split; [|split]; apply Each; try assumption; intros K; apply andb_true_iff in K as [_ K]; apply same_name_spec in K;
      destruct W as [(_ & W & -> & ->)|[(_ & W & -> & ->)|(_ & W & -> & ->)]]; auto; rewrite W in K; exfalso; vm_compute in K; discriminate.
  - rewrite Same. exact M.
  - unfold get_array, get_tagbase. assert (B' : 0 <= d <= t_dim m') by lia. rewrite (check_dim2_ok m' d V' B') by (unfold nents_at in *; rewrite A2; exact N). rewrite (tags_at_ok m' d V' B'). cbn [bind].
    specialize (Sh' d n). rewrite Z.eqb_refl, same_name_refl in Sh'. cbn [andb] in Sh'. destruct Sh' as (t & Ft & Ty & Ar). rewrite Ft. cbn [bind]. rewrite Ty, Z.eqb_refl, Ar. reflexivity.
Qed.
Lemma fresh_ask u f n d m m' a : valid m -> 1 <= d <= t_dim m -> fresh m -> ask_cached u f n d m = Ok (m', a) ->
  ((d = 1 /\ n = name_of "length" /\ u = true /\ f = fl) \/ (d = t_dim m /\ n = name_of "quality" /\ u = true /\ f = fq) \/ (d = t_dim m /\ n = name_of "size" /\ u = false /\ f = fs)) ->
  alike m m' /\ valid m' /\ fresh m' /\ exists v, a = Some v /\ measured u f m = Ok v /\ measured u f m' = Ok v.
Proof.
  intros V D F E W. unfold ask_cached in E. assert (B : 0 <= d <= t_dim m) by lia. rewrite (has_tag_ok m d n V B) in E. cbn [bind] in E. destruct (find_tag (tags_at m d) n) as [t|] eqn:Ft.
  - cbn [bind] in E. apply bind_ok in E as (a' & Ea & E). inversion E; subst m' a'. split; [split; reflexivity|]. split; [exact V|]. split; [exact F|].
    unfold get_array, get_tagbase in Ea. apply bind_ok in Ea as (t' & Et & Ea). apply bind_ok in Et as (_ & _ & Et). rewrite (tags_at_ok m d V B) in Et. cbn [bind] in Et. rewrite Ft in Et. inversion Et; subst t'.
    destruct (tag_type t =? OMEGA_H_F64); [|discriminate]. inversion Ea; subst a. destruct F as (F1 & F2 & F3).
    assert (C : cached u f m d n) by (destruct W as [(-> & -> & -> & ->)|[(-> & -> & -> & ->)|(-> & -> & -> & ->)]]; assumption).
    destruct (C t Ft) as (_ & v & Av & Mv). exists v. auto.
  - apply bind_ok in E as (m1 & E1 & E). apply bind_ok in E1 as (v & Mv & E1). destruct (fresh_ask_ u f n d m m1 v V ltac:(lia) F Mv E1 W) as (A & V' & F' & M' & G).
    rewrite G in E. cbn [bind] in E. inversion E; subst m1 a. split; [exact A|]. split; [exact V'|]. split; [exact F'|]. exists v. auto.
Qed.

Lemma run_fresh m0 : untagged m0 -> forall evs m, forallb (honest_event (t_dim m0)) evs = true -> foldM (run_event fl fq fs) evs m0 = Ok m -> alike m0 m /\ valid m /\ fresh m.
Proof.
  intros U. destruct (untagged_valid m0 U) as [V0 T0]. induction evs as [|e evs IH] using rev_ind; intros m H E.
  - inversion E; subst m. split; [split; reflexivity|]. split; [exact V0|]. split; [|split]; intros t Ft; rewrite T0 in Ft; discriminate.
  - rewrite forallb_app in H. apply andb_true_iff in H as [H1 H2]. cbn in H2. rewrite andb_true_r in H2. rewrite foldM_app in E. apply bind_ok in E as (m1 & E1 & E2). cbn [foldM] in E2. apply bind_ok in E2 as (m2 & E2 & E3). inversion E3; subst m2.
    destruct (IH m1 H1 E1) as ([A1 A2] & V1 & F1). pose proof V1 as (D1 & _). destruct e as [o| | |]; cbn [run_event honest_event] in *.
    + rewrite <- A1 in H2. destruct (op_effect m1 o m V1 E2) as ([B1 B2] & V2 & _). split; [split; congruence|]. split; [exact V2|]. apply (fresh_op m1 o m V1 E2 H2 F1).
    + apply bind_ok in E2 as ([m2 a] & Ea & E2). inversion E2; subst m2. destruct (fresh_ask true fl (name_of "length") EDGE m1 m a V1 ltac:(unfold EDGE; lia) F1 Ea ltac:(left; auto)) as ([B1 B2] & V2 & F2 & _). split; [split; congruence|]. auto.
    + apply bind_ok in E2 as ([m2 a] & Ea & E2). inversion E2; subst m2. unfold ask_qualities in Ea. rewrite (mdim_ok m1 V1) in Ea. cbn [bind] in Ea.
      destruct (fresh_ask true fq (name_of "quality") (t_dim m1) m1 m a V1 ltac:(lia) F1 Ea ltac:(right; left; auto)) as ([B1 B2] & V2 & F2 & _). split; [split; congruence|]. auto.
    + apply bind_ok in E2 as ([m2 a] & Ea & E2). inversion E2; subst m2. unfold ask_sizes in Ea. rewrite (mdim_ok m1 V1) in Ea. cbn [bind] in Ea.
      destruct (fresh_ask false fs (name_of "size") (t_dim m1) m1 m a V1 ltac:(lia) F1 Ea ltac:(right; right; auto)) as ([B1 B2] & V2 & F2 & _). split; [split; congruence|]. auto.
Qed.

Lemma asks_fresh m0 evs m : untagged m0 -> forallb (honest_event (t_dim m0)) evs = true -> foldM (run_event fl fq fs) evs m0 = Ok m ->
  (forall m' a, ask_lengths fl m = Ok (m', a) -> exists v, a = Some v /\ measured true fl m = Ok v /\ measured true fl m' = Ok v) /\
  (forall m' a, ask_qualities fq m = Ok (m', a) -> exists v, a = Some v /\ measured true fq m = Ok v /\ measured true fq m' = Ok v) /\
  (forall m' a, ask_sizes fs m = Ok (m', a) -> exists v, a = Some v /\ measured false fs m = Ok v /\ measured false fs m' = Ok v).
Proof.
  intros U H E. destruct (run_fresh m0 U evs m H E) as ([A1 A2] & V1 & F1). pose proof V1 as (D1 & _). split; [|split]; intros m' a Ea.
  - destruct (fresh_ask true fl (name_of "length") EDGE m m' a V1 ltac:(unfold EDGE; lia) F1 Ea ltac:(left; auto)) as (_ & _ & _ & K). exact K.
  - unfold ask_qualities in Ea. rewrite (mdim_ok m V1) in Ea. cbn [bind] in Ea. destruct (fresh_ask true fq (name_of "quality") (t_dim m) m m' a V1 ltac:(lia) F1 Ea ltac:(right; left; auto)) as (_ & _ & _ & K). exact K.
  - unfold ask_sizes in Ea. rewrite (mdim_ok m V1) in Ea. cbn [bind] in Ea. destruct (fresh_ask false fs (name_of "size") (t_dim m) m m' a V1 ltac:(lia) F1 Ea ltac:(right; right; auto)) as (_ & _ & _ & K). exact K.
Qed.
End caches.

Lemma add_ok m type d n nc a internal : valid m -> 0 <= d <= t_dim m -> 0 <= nents_at m d -> n <> [] ->
  (find_tag (tags_at m d) n = None -> 0 <= nc <= 127 /\ zlen (tags_at m d) < 127) -> (forall x, a = Some x -> zlen x = nents_at m d * nc) ->
  exists m', add_tag m type d n nc a internal = Ok m'.
Proof.
  intros V B N Hn Hc Ha. unfold add_tag. rewrite (tags_at_ok m d V B). cbn [bind]. pose proof V as (_ & _ & _ & V4).
  assert (C : (if match find_tag (tags_at m d) n with Some _ => true | None => false end then Ok tt
     else _ <- check_dim2 m d ;; if match n with [] => true | _ :: _ => false end then Abort else if negb (0 <=? nc) then Abort else if negb (nc <=? 127) then Abort else if negb (zlen (tags_at m d) <? 127) then Abort else Ok tt) = Ok tt).
  { destruct (find_tag (tags_at m d) n); [reflexivity|]. destruct (Hc eq_refl) as [C1 C2]. rewrite (check_dim2_ok m d V B N). cbn [bind]. destruct n; [congruence|].
    replace (0 <=? nc) with true by (symmetry; apply Z.leb_le; lia). replace (nc <=? 127) with true by (symmetry; apply Z.leb_le; lia). replace (zlen (tags_at m d) <? 127) with true by (symmetry; apply Z.ltb_lt; lia). reflexivity. }
  rewrite C. cbn [bind]. destruct n as [|c n0]; [congruence|]. set (n := c :: n0) in *.
  assert (Ca : match a with Some x => k <- zget (t_nents m) d ;; if negb (zlen x =? k * nc) then Abort else Ok tt | None => Ok tt end = Ok tt).
  { destruct a as [x|]; [|reflexivity]. rewrite (nents_at_ok m d V B). cbn [bind]. rewrite (Ha x eq_refl), Z.eqb_refl. reflexivity. }
  rewrite Ca. cbn [bind].
  assert (P : (if match find_tag (tags_at m d) n with Some _ => true | None => false end then replace_tag (tags_at m d) n (mk_tag n type nc a) else tags_at m d ++ [mk_tag n type nc a]) = put (tags_at m d) (mk_tag n type nc a)).
  { unfold put. cbn [tag_name]. destruct (find_tag (tags_at m d) n); reflexivity. }
  rewrite P. destruct (set_list m d (put (tags_at m d) (mk_tag n type nc a)) V B) as (ts & Hts & A & V' & T); [auto|apply put_nodup; apply V4|]. rewrite Hts. cbn [bind].
  destruct internal; [eauto|]. destruct (react_ok (mk_tmesh (t_dim m) (t_nents m) ts) d n V') as (m2 & E2 & _). eauto.
Qed.

(** from a mesh that has gone through a history *)
Lemma add_succeeds m0 ops m type d n nc a internal k : untagged m0 -> foldM run_op ops m0 = Ok m -> 0 <= d <= t_dim m0 -> zget (t_nents m0) d = Ok k -> 0 <= k -> n <> [] -> 0 <= nc <= 127 ->
  zlen (order (t_dim m0) ops d) < 127 -> (forall x, a = Some x -> zlen x = k * nc) -> exists m', add_tag m type d n nc a internal = Ok m'.
Proof.
  intros U E B K1 K2 Hn Hc Ho Ha. destruct (run_agrees m0 U ops m E) as ([A1 A2] & V & _ & G2).
  assert (N : nents_at m d = k) by (unfold nents_at; rewrite A2, K1; reflexivity). apply add_ok; [exact V|lia|lia|exact Hn| |].
  - intros _. split; [exact Hc|]. rewrite <- G2 in Ho. unfold names in Ho. rewrite zlen_map in Ho. exact Ho.
  - intros x Hx. rewrite N. auto.
Qed.

(** three ways to get a stale answer: the lengths are the first two entries of the metric, say *)
Definition stale_measure : measurer := fun _ mt => match mt with Some [a; b] => Ok [a; b] | _ => Abort end.
Definition stale_mesh : tmesh := mk_tmesh 1 [2; 2; -1; -1] [[]; []; []; []].
Definition stale_start : list event := [Op (Add OMEGA_H_F64 0 (name_of "metric") 1 (Some [3; 4]) false); AskLengths].
Lemma stale_untagged : untagged stale_mesh.
Proof. split; [cbn; lia|]. split; reflexivity. Qed.
Lemma stale_removed : exists m m', foldM (run_event stale_measure stale_measure stale_measure) (stale_start ++ [Op (Remove 0 (name_of "metric"))]) stale_mesh = Ok m /\
  ask_lengths stale_measure m = Ok (m', Some [3; 4]) /\ measured true stale_measure m = Abort.
Proof. eexists. eexists. split; [vm_compute; reflexivity|]. split; vm_compute; reflexivity. Qed.
Lemma stale_internal : exists m m', foldM (run_event stale_measure stale_measure stale_measure) (stale_start ++ [Op (Set_ OMEGA_H_F64 0 (name_of "metric") [5; 6] true)]) stale_mesh = Ok m /\
  ask_lengths stale_measure m = Ok (m', Some [3; 4]) /\ measured true stale_measure m = Ok [5; 6].
Proof. eexists. eexists. split; [vm_compute; reflexivity|]. split; vm_compute; reflexivity. Qed.
Lemma fresh_set : exists m m', forallb (honest_event 1) (stale_start ++ [Op (Set_ OMEGA_H_F64 0 (name_of "metric") [5; 6] false)]) = true /\
  foldM (run_event stale_measure stale_measure stale_measure) (stale_start ++ [Op (Set_ OMEGA_H_F64 0 (name_of "metric") [5; 6] false)]) stale_mesh = Ok m /\
  ask_lengths stale_measure m = Ok (m', Some [5; 6]).
Proof. eexists. eexists. split; [vm_compute; reflexivity|]. split; vm_compute; reflexivity. Qed.
