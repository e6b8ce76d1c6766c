From Verif Require Import Prelude M_Par S_Par.

Lemma loc_eqb_spec a b : reflect (a = b) (loc_eqb a b).
Proof.
  destruct a as [a1 a2], b as [b1 b2]. unfold loc_eqb. cbn.
  destruct (Nat.eqb_spec a1 b1), (Nat.eqb_spec a2 b2); cbn; constructor; congruence.
Qed.

Section P.
Variable V : Type.
Implicit Types (m : mem V) (p : prog V).

Lemma upd_eq m l v : upd m l v l = v.
Proof. unfold upd. destruct (loc_eqb_spec l l); congruence. Qed.
Lemma upd_ne m l l' v : l <> l' -> upd m l v l' = m l'.
Proof. unfold upd. destruct (loc_eqb_spec l l'); congruence. Qed.

Lemma solo_outside inputs own p : confined inputs own p ->
  forall m l, ~ own l -> solo m p l = m l.
Proof.
  induction 1 as [|l k Hl Hk IH|l v k Hl Hk IH|l f k Hl Hk IH]; intros m l' Hn; cbn; auto.
  - rewrite IH by assumption. apply upd_ne. congruence.
  - rewrite IH by assumption. apply upd_ne. congruence.
Qed.

Lemma solo_agree inputs own p : confined inputs own p ->
  forall m m', (forall l, inputs l \/ own l -> m l = m' l) ->
  forall l, inputs l \/ own l -> solo m p l = solo m' p l.
Proof.
  induction 1 as [|l k Hl Hk IH|l v k Hl Hk IH|l f k Hl Hk IH]; intros m m' Ha l' Hl'; cbn; auto.
  - rewrite (Ha l Hl). apply IH; assumption.
  - apply IH; [|assumption]. intros l2 H2. unfold upd. destruct (loc_eqb l l2); auto.
  - rewrite (Ha l (or_intror Hl)). apply IH; [|assumption].
    intros l2 H2. unfold upd. destruct (loc_eqb l l2); auto.
Qed.

Lemma step1_solo m p m' p' : step1 m p = (m', p') -> solo m' p' = solo m p.
Proof. destruct p; cbn; intros E; inversion E; subst; reflexivity. Qed.

Lemma step1_confined inputs own m p m' p' : confined inputs own p -> step1 m p = (m', p') ->
  confined inputs own p' /\ (forall l, ~ own l -> m' l = m l).
Proof.
  intros C E. destruct C as [|l k Hl Hk|l v k Hl Hk|l f k Hl Hk]; cbn in E; inversion E; subst.
  - split; [constructor|auto].
  - split; [apply Hk|auto].
  - split; [exact Hk|]. intros l' Hn. apply upd_ne. congruence.
  - split; [apply Hk|]. intros l' Hn. apply upd_ne. congruence.
Qed.

Section inv.
Variable inputs : loc -> Prop.
Variable own : nat -> loc -> Prop.
Variable m0 : mem V.
Variable ps0 : list (prog V).
Hypothesis CF : conflict_free inputs own ps0.

Definition Inv (c : mem V * list (prog V)) : Prop :=
  length (snd c) = length ps0 /\
  (forall i p, nth_error (snd c) i = Some p -> confined inputs (own i) p) /\
  (forall l, (forall i, own i l -> length ps0 <= i) -> fst c l = m0 l) /\
  (forall i p p0, nth_error (snd c) i = Some p -> nth_error ps0 i = Some p0 ->
     forall l, own i l -> solo (fst c) p l = solo m0 p0 l).

Lemma Inv_init : Inv (m0, ps0).
Proof.
  destruct CF as (C1 & C2 & C3).
  repeat split; auto. intros i p p0 H1 H2 l Hl. cbn in *. congruence.
Qed.

Lemma Inv_step c i : Inv c -> Inv (step c i).
Proof.
  destruct c as [m ps]. intros (L & C & O & S). unfold step. cbn [fst snd] in *.
  destruct CF as (C1 & C2 & C3).
  destruct (nth_error ps i) as [p|] eqn:E; [|repeat split; auto].
  destruct (step1 m p) as [m' p'] eqn:Es.
  destruct (step1_confined _ _ _ _ _ _ (C i p E) Es) as [Cp Hm].
  assert (i < length ps) as Hi by (apply nth_error_Some; congruence).
  repeat split; cbn [fst snd].
  - rewrite list_set_length. exact L.
  - intros j q Hq. destruct (Nat.eq_dec i j) as [->|Hne].
    + rewrite list_set_nth_eq in Hq by exact Hi. injection Hq as <-. exact Cp.
    + rewrite list_set_nth_ne in Hq by exact Hne. apply C, Hq.
  - intros l Hl. rewrite Hm; [apply O, Hl|]. intros Ho. specialize (Hl i Ho). lia.
  - intros j q q0 Hq Hq0 l Hl. destruct (Nat.eq_dec i j) as [->|Hne].
    + rewrite list_set_nth_eq in Hq by exact Hi. injection Hq as <-.
      rewrite (step1_solo _ _ _ _ Es). apply (S j p q0 E Hq0 l Hl).
    + rewrite list_set_nth_ne in Hq by exact Hne.
      rewrite <- (S j q q0 Hq Hq0 l Hl).
      apply (solo_agree inputs (own j) q (C j q Hq)); [|right; exact Hl].
      intros l2 H2. apply Hm. intros Ho. destruct H2 as [H2|H2].
      * exact (C3 i l2 Ho H2).
      * apply Hne. exact (C2 i j l2 Ho H2).
Qed.

Lemma Inv_run s : forall c, Inv c -> Inv (run c s).
Proof. induction s as [|i s IH]; intros c H; cbn; auto. apply IH, Inv_step, H. Qed.

Lemma done_mem c : Inv c -> all_done c ->
  (forall i p0, nth_error ps0 i = Some p0 -> forall l, own i l -> fst c l = solo m0 p0 l) /\
  (forall l, (forall i, own i l -> length ps0 <= i) -> fst c l = m0 l).
Proof.
  intros (L & C & O & S) D. split; [|exact O].
  intros i p0 H0 l Hl.
  destruct (nth_error (snd c) i) as [p|] eqn:E.
  - assert (p = Done) as ->. { unfold all_done in D. rewrite Forall_forall in D. apply D, (nth_error_In _ _ E). }
    rewrite <- (S i Done p0 E H0 l Hl). reflexivity.
  - exfalso. apply nth_error_None in E. assert (i < length ps0) by (apply nth_error_Some; congruence). lia.
Qed.

(* serial execution has the same characterisation *)
Lemma serial_char : forall ps k m,
  (forall j p, nth_error ps j = Some p -> nth_error ps0 (k + j) = Some p) ->
  k + length ps = length ps0 ->
  (forall l, (forall i, own i l -> k <= i) -> m l = m0 l) ->
  (forall i p0, i < k -> nth_error ps0 i = Some p0 -> forall l, own i l -> m l = solo m0 p0 l) ->
  (forall i p0, nth_error ps0 i = Some p0 -> forall l, own i l -> fold_left solo ps m l = solo m0 p0 l) /\
  (forall l, (forall i, own i l -> length ps0 <= i) -> fold_left solo ps m l = m0 l).
Proof.
  destruct CF as (C1 & C2 & C3).
  induction ps as [|p ps IH]; intros k m Hps Hlen Hun Hdone.
  - cbn in *. split.
    + intros i p0 H0 l Hl. apply (Hdone i); try assumption.
      assert (i < length ps0) by (apply nth_error_Some; congruence). lia.
    + intros l Hl. apply Hun. intros i Hi. specialize (Hl i Hi). lia.
  - cbn [fold_left]. cbn in Hlen.
    pose proof (Hps 0 p eq_refl) as Hp. rewrite Nat.add_0_r in Hp.
    pose proof (C1 k p Hp) as Cp.
    apply (IH (S k)); [|lia| |].
    + intros j q Hq. specialize (Hps (S j) q Hq). rewrite Nat.add_succ_r in Hps. exact Hps.
    + intros l Hl. rewrite (solo_outside inputs (own k) p Cp).
      * apply Hun. intros i Hi. specialize (Hl i Hi). lia.
      * intros Ho. specialize (Hl k Ho). lia.
    + intros i p0 Hik H0 l Hl. destruct (Nat.eq_dec i k) as [->|Hne].
      * rewrite Hp in H0. injection H0 as <-.
        apply (solo_agree inputs (own k) p Cp); [|right; exact Hl].
        intros l2 H2. apply Hun. intros i Hi. destruct H2 as [H2|H2]; [exfalso; exact (C3 i l2 Hi H2)|].
        rewrite (C2 i k l2 Hi H2). lia.
      * rewrite (solo_outside inputs (own k) p Cp).
        -- apply (Hdone i); try assumption. lia.
        -- intros Ho. apply Hne. exact (C2 i k l Hl Ho).
Qed.
End inv.

Lemma par_deterministic inputs own (m : mem V) ps schedule :
  (forall l i, own i l \/ ~ own i l) ->
  conflict_free inputs own ps ->
  all_done (run (m, ps) schedule) ->
  forall l, fst (run (m, ps) schedule) l = serial m ps l.
Proof.
  intros Hdec CF D l.
  destruct (done_mem inputs own m ps _ (Inv_run inputs own m ps CF schedule _ (Inv_init inputs own m ps CF)) D) as [A1 A2].
  destruct (serial_char inputs own m ps CF ps 0 m) as [B1 B2]; auto.
  { intros i p0 Hi. lia. }
  unfold serial.
  assert ((exists i, i < length ps /\ own i l) \/ (forall i, own i l -> length ps <= i)) as [(i & Hi & Ho)|H].
  { clear -Hdec. induction (length ps) as [|n IH].
    - right. intros. lia.
    - destruct IH as [(i & Hi & Ho)|H]; [left; exists i; split; [lia|exact Ho]|].
      destruct (Hdec l n) as [Hn|Hn]; [left; exists n; split; [lia|exact Hn]|].
      right. intros i Hi. specialize (H i Hi). assert (i <> n) by (intros ->; contradiction). lia. }
  - destruct (nth_error ps i) as [p0|] eqn:E.
    + rewrite (A1 i p0 E l Ho), (B1 i p0 E l Ho). reflexivity.
    + apply nth_error_None in E. lia.
  - rewrite (A2 l H), (B2 l H). reflexivity.
Qed.


(* every pool of finite programs can be run to completion: schedules exist *)
Lemma run_app' c s t : run (V:=V) c (s ++ t) = run (run c s) t.
Proof. apply fold_left_app. Qed.

Lemma solo_schedule p : forall m ps i, nth_error ps i = Some p ->
  exists n, run (V:=V) (m, ps) (repeat i n) = (solo m p, list_set ps i Done).
Proof.
  assert (forall (ps : list (prog V)) i p, nth_error ps i = Some p -> list_set ps i p = ps) as Hid.
  { clear. intros ps; induction ps as [|q ps IH]; intros [|i] p H; cbn in *; try discriminate.
    - congruence.
    - f_equal. apply IH, H. }
  assert (forall (ps : list (prog V)) i p q, list_set (list_set ps i p) i q = list_set ps i q) as Hss.
  { clear. intros ps; induction ps as [|r ps IH]; intros [|i] p q; cbn; try reflexivity. f_equal. apply IH. }
  assert (forall (ps : list (prog V)) i p q, nth_error ps i = Some p -> nth_error (list_set ps i q) i = Some q) as Hget.
  { intros ps i q r H. apply list_set_nth_eq. apply nth_error_Some. congruence. }
  induction p as [|l k IH|l v k IH|l f k IH]; intros m ps i H.
  - exists 0. cbn. rewrite Hid; auto.
  - destruct (IH (m l) m (list_set ps i (k (m l))) i (Hget _ _ _ _ H)) as (n & E).
    exists (S n). cbn [repeat run fold_left]. unfold step at 2. cbn [fst snd]. rewrite H. cbn [step1].
    unfold run in E. rewrite E. rewrite Hss. reflexivity.
  - destruct (IH (upd m l v) (list_set ps i k) i (Hget _ _ _ _ H)) as (n & E).
    exists (S n). cbn [repeat run fold_left]. unfold step at 2. cbn [fst snd]. rewrite H. cbn [step1].
    unfold run in E. rewrite E. rewrite Hss. reflexivity.
  - destruct (IH (m l) (upd m l (f (m l))) (list_set ps i (k (m l))) i (Hget _ _ _ _ H)) as (n & E).
    exists (S n). cbn [repeat run fold_left]. unfold step at 2. cbn [fst snd]. rewrite H. cbn [step1].
    unfold run in E. rewrite E. rewrite Hss. reflexivity.
Qed.

Lemma serial_is_schedule (m : mem V) ps : exists s, run (m, ps) s = (serial m ps, map (fun _ => Done) ps).
Proof.
  assert (forall todo dn m, exists s, run (V:=V) (m, map (fun _ => Done) dn ++ todo) s =
     (fold_left solo todo m, map (fun _ => Done) (dn ++ todo))) as H.
  { induction todo as [|p todo IH]; intros dn m'.
    - exists []. cbn. rewrite app_nil_r, app_nil_r. reflexivity.
    - destruct (solo_schedule p m' (map (fun _ => Done) dn ++ p :: todo) (length dn)) as (n & E).
      { rewrite nth_error_app2 by (rewrite map_length; lia). rewrite map_length, Nat.sub_diag. reflexivity. }
      assert (list_set (map (fun _ => Done) dn ++ p :: todo) (length dn) Done = map (fun _ => Done) (dn ++ [p]) ++ todo) as Es.
      { clear. induction dn as [|q dn IHd]; cbn in *; [reflexivity|]. f_equal. exact IHd. }
      rewrite Es in E. destruct (IH (dn ++ [p]) (solo m' p)) as (s & E').
      exists (repeat (length dn) n ++ s). rewrite run_app', E, E'. rewrite <- app_assoc. reflexivity. }
  destruct (H ps [] m) as (s & E). exists s. exact E.
Qed.

Lemma serial_complete_schedule (m : mem V) ps :
  exists s, all_done (run (m, ps) s) /\ fst (run (m, ps) s) = serial m ps.
Proof.
  destruct (serial_is_schedule m ps) as (s & E). exists s. rewrite E. split; [|reflexivity].
  unfold all_done. cbn. apply Forall_forall. intros p Hp. apply in_map_iff in Hp as (q & <- & _). reflexivity.
Qed.
End P.
