From Verif Require Import Prelude M_Future S_Future.
Local Open Scope Z_scope.

Section P.
Context {T : Type}.
Implicit Types (f : future T) (r : Z * list T).

Lemma land_spec : forall (vals : list T) pos buf, 0 <= pos -> pos + zlen vals <= zlen buf ->
  exists b, land pos vals buf = Ok b /\ zlen b = zlen buf /\
    (forall j v, zget vals j = Ok v -> zget b (pos + j) = Ok v) /\
    (forall p, ~ (pos <= p < pos + zlen vals) -> zget b p = zget buf p).
Proof.
  induction vals as [|v t IH]; intros pos buf Hp Hl.
  - exists buf. cbn [land]. repeat split; auto. intros j v E. apply zget_bounds in E. unfold zlen in E; cbn [length] in E; lia.
  - rewrite zlen_cons in Hl. pose proof (zlen_nonneg t) as Ht. cbn [land].
    destruct (zset_in_range buf pos v) as (b1 & E1); [lia|]. rewrite E1. cbn [bind].
    pose proof (zset_zlen _ _ _ _ E1) as L1.
    destruct (IH (pos + 1) b1) as (b & E & L & Hg & Ho); [lia|lia|].
    exists b. split; [exact E|]. split; [lia|]. split.
    + intros j w Ej. pose proof (zget_bounds _ _ _ Ej) as Hj. rewrite zlen_cons in Hj.
      destruct (Z.eq_dec j 0) as [->|Hn].
      * cbn in Ej. injection Ej as <-. rewrite Ho by lia. rewrite Z.add_0_r. exact (zset_get_eq _ _ _ _ E1).
      * replace (pos + j) with (pos + 1 + (j - 1)) by lia. apply Hg.
        change (v :: t) with ([v] ++ t) in Ej. rewrite zget_app_r in Ej by (change (zlen [v]) with 1; lia). change (zlen [v]) with 1 in Ej. exact Ej.
    + intros p Hnp. rewrite zlen_cons in Hnp. rewrite Ho by lia. apply (zset_get_ne _ _ _ _ _ E1). lia.
Qed.

Lemma deliver_received done buf b r : received done buf b -> fits (zlen buf) r ->
  (forall s, In s done -> forall p, covers r p -> ~ covers s p) ->
  exists b', deliver r b = Ok b' /\ received (r :: done) buf b'.
Proof.
  intros (Hl & Hg & Ho) (F1 & F2) Hd.
  destruct (land_spec (snd r) (fst r) b) as (b' & E & L & G & O); [lia|lia|].
  exists b'. split; [exact E|]. split; [lia|]. split.
  - intros s j v [<-|Hs] Ej; [exact (G j v Ej)|].
    rewrite O; [exact (Hg s j v Hs Ej)|]. intros Hc. apply (Hd s Hs (fst s + j)); [exact Hc|].
    apply zget_bounds in Ej. unfold covers. lia.
  - intros p Hp. rewrite O; [|intros Hc; exact (Hp r (or_introl eq_refl) Hc)].
    apply Ho. intros s Hs. apply Hp. right. exact Hs.
Qed.

Lemma received_perm (l m : list (Z * list T)) buf b : Permutation l m -> received l buf b -> received m buf b.
Proof.
  intros P (Hl & Hg & Ho). split; [exact Hl|]. split.
  - intros r j v Hr. apply Hg. apply (Permutation_in _ (Permutation_sym P)), Hr.
  - intros p Hp. apply Ho. intros r Hr. apply Hp. apply (Permutation_in _ P), Hr.
Qed.

Lemma received_nil (buf : list T) : received [] buf buf.
Proof. split; [reflexivity|]. split; [intros r j v []|reflexivity]. Qed.

Lemma apart_perm (l m : list (Z * list T)) : Permutation l m -> apart l -> apart m.
Proof.
  unfold apart. induction 1; intros HA; auto.
  - inversion HA; subst. constructor; [|auto]. rewrite Forall_forall in *. intros y Hy.
    apply H2. apply (Permutation_in _ (Permutation_sym H)), Hy.
  - inversion HA as [|? ? H1 H2]; subst. inversion H2 as [|? ? H3 H4]; subst. inversion H1 as [|? ? H5 H6]; subst.
    constructor; [constructor; [|exact H3]|constructor; [exact H6|exact H4]].
    intros p Hx Hy. exact (H5 p Hy Hx).
Qed.

Lemma apart_mid (l m : list (Z * list T)) r : apart (l ++ r :: m) -> forall s, In s (l ++ m) -> forall p, covers r p -> ~ covers s p.
Proof.
  intros HA s Hs. assert (HB : apart (r :: l ++ m)) by (apply (apart_perm (l ++ r :: m)); [apply Permutation_sym, Permutation_middle|exact HA]).
  inversion HB as [|? ? H1 H2]; subst. rewrite Forall_forall in H1. exact (H1 s Hs).
Qed.

Lemma split_nth (l : list (Z * list T)) i r : nth_error l i = Some r -> l = firstn i l ++ r :: skipn (S i) l.
Proof.
  revert i. induction l as [|x t IH]; intros [|i] E; try discriminate.
  - cbn in E. injection E as ->. reflexivity.
  - cbn [nth_error] in E. cbn [firstn skipn app]. f_equal. exact (IH i E).
Qed.


Section Inv.
Variables (buf : list T) (reqs : list (Z * list T)) (cb : list T -> list T).
Hypothesis Hfit : Forall (fits (zlen buf)) reqs.
Hypothesis Hapart : apart reqs.

Definition inv (cbs : list (list T -> list T)) f : Prop :=
  exists finished, Permutation reqs (finished ++ pending f) /\ received finished buf (recvbuf f) /\
  (forall x, callback f x = apply_all cbs (cb x)).

Lemma inv_make : inv [] (make buf reqs cb).
Proof. exists []. split; [reflexivity|]. split; [apply received_nil|reflexivity]. Qed.

Lemma network_inv cbs f i : inv cbs f -> exists f', network i f = Ok f' /\ inv cbs f' /\ status_ f' = status_ f.
Proof.
  intros (fin & P & R & C). unfold network. destruct (nth_error (pending f) i) as [r|] eqn:E.
  - pose proof (split_nth _ _ _ E) as Sp.
    assert (P2 : Permutation reqs ((r :: fin) ++ firstn i (pending f) ++ skipn (S i) (pending f))).
    { rewrite P, Sp at 1. rewrite app_assoc. rewrite <- Permutation_middle. rewrite <- app_assoc. reflexivity. }
    destruct (deliver_received fin buf (recvbuf f) r R) as (b & Eb & Rb).
    + rewrite Forall_forall in Hfit. apply Hfit. apply (Permutation_in _ (Permutation_sym P2)). left. reflexivity.
    + intros s Hs. pose proof (apart_perm _ _ P2 Hapart) as A. cbn [app] in A.
      apply (apart_mid [] _ r A). cbn [app]. apply in_or_app. left. exact Hs.
    + rewrite Eb. cbn [bind]. eexists. split; [reflexivity|]. split; [|reflexivity].
      exists (r :: fin). cbn [pending recvbuf callback]. auto.
  - exists f. split; [reflexivity|]. split; [|reflexivity]. exists fin. auto.
Qed.

Lemma happens_inv cbs f e : inv cbs f -> exists f', happens e f = Ok f' /\
  inv (match e with AddCb c => cbs ++ [c] | _ => cbs end) f' /\
  (e <> Ask -> status_ f' = status_ f).
Proof.
  intros I. destruct e as [i| |c]; cbn [happens].
  - destruct (network_inv cbs f i I) as (f' & E & I' & S'). exists f'. auto.
  - eexists. split; [reflexivity|]. split; [|congruence]. destruct I as (fin & P & R & C). exists fin.
    unfold completed. destruct (status_ f); cbn [snd]; auto. destruct (pending f) eqn:E; cbn [Z.eqb snd]; [rewrite E|]; cbn [pending recvbuf callback]; auto.
  - eexists. split; [reflexivity|]. split; [|reflexivity]. destruct I as (fin & P & R & C). exists fin.
    cbn [add_callback pending recvbuf callback]. split; [exact P|]. split; [exact R|]. intros x. rewrite C.
    unfold apply_all. rewrite fold_left_app. reflexivity.
Qed.

Lemma history_inv : forall es cbs f, inv cbs f -> exists f', history es f = Ok f' /\ inv (cbs ++ callbacks es) f' /\
  (~ In Ask es -> status_ f' = status_ f).
Proof.
  induction es as [|e t IH]; intros cbs f I.
  - exists f. cbn [callbacks]. rewrite app_nil_r. auto.
  - destruct (happens_inv cbs f e I) as (f1 & E1 & I1 & S1).
    destruct (IH _ _ I1) as (f2 & E2 & I2 & S2). exists f2.
    unfold history in *. cbn [foldM]. rewrite E1. cbn [bind]. split; [exact E2|]. split.
    + destruct e; cbn [callbacks]; try exact I2. rewrite <- app_assoc in I2. exact I2.
    + intros Hn. rewrite S2 by (intros H; apply Hn; right; exact H). apply S1. intros ->. apply Hn. left. reflexivity.
Qed.

Lemma waitall_spec : forall pend fin b, Permutation reqs (fin ++ pend) -> received fin buf b ->
  exists b', foldM (fun b r => deliver r b) pend b = Ok b' /\ received reqs buf b'.
Proof.
  induction pend as [|r t IH]; intros fin b P R.
  - exists b. rewrite app_nil_r in P. split; [reflexivity|]. exact (received_perm _ _ _ _ (Permutation_sym P) R).
  - assert (P2 : Permutation reqs ((r :: fin) ++ t)) by (rewrite P; cbn [app]; symmetry; apply Permutation_middle).
    destruct (deliver_received fin buf b r R) as (b1 & E1 & R1).
    + rewrite Forall_forall in Hfit. apply Hfit. apply (Permutation_in _ (Permutation_sym P2)). left. reflexivity.
    + intros s Hs. apply (apart_mid [] (fin ++ t) r); [exact (apart_perm _ _ P2 Hapart)|]. cbn [app]. apply in_or_app. left. exact Hs.
    + destruct (IH (r :: fin) b1 P2 R1) as (b' & E & R'). exists b'. cbn [foldM]. rewrite E1. auto.
Qed.

Lemma get_full cbs f : inv cbs f -> (status_ f = Waiting \/ status_ f = Completed /\ pending f = []) ->
  exists final f', get f = Ok (apply_all cbs (cb final), f') /\ received reqs buf final /\ status_ f' = Consumed.
Proof.
  intros (fin & P & R & C) Hs. unfold get. destruct Hs as [->|[-> Hp]].
  - destruct (waitall_spec (pending f) fin (recvbuf f) P R) as (b & E & R'). unfold waitall. rewrite E. cbn [bind].
    rewrite C. eexists _, _. split; [reflexivity|]. auto.
  - rewrite C. eexists _, _. split; [reflexivity|]. split; [|reflexivity]. rewrite Hp, app_nil_r in P.
    exact (received_perm _ _ _ _ (Permutation_sym P) R).
Qed.
End Inv.

Lemma consumed_stays : forall es (f f' : future T), status_ f = Consumed -> history es f = Ok f' -> status_ f' = Consumed.
Proof.
  induction es as [|e t IH]; intros f f' S0 E; [cbn in E; congruence|].
  unfold history in *. cbn [foldM] in E. apply bind_ok in E as (f1 & E1 & E2). apply (IH f1 f'); [|exact E2].
  destruct e as [i| |c]; cbn [happens] in E1.
  - unfold network in E1. destruct (nth_error (pending f) i); [|congruence].
    apply bind_ok in E1 as (b & Eb & E1). assert (f1 = Future b (firstn i (pending f) ++ skipn (S i) (pending f)) (callback f) (status_ f)) by congruence. subst. exact S0.
  - unfold completed in E1. rewrite S0 in E1. cbn [snd] in E1. congruence.
  - assert (f1 = add_callback c f) by congruence. subst. exact S0.
Qed.

Lemma get_after_history (buf : list T) reqs cb es : Forall (fits (zlen buf)) reqs -> apart reqs -> ~ In Ask es ->
  exists f final f', history es (make buf reqs cb) = Ok f /\
    get f = Ok (apply_all (callbacks es) (cb final), f') /\ received reqs buf final /\
    forall es' f'', history es' f' = Ok f'' -> get f'' = Abort.
Proof.
  intros HF HA Hn. destruct (history_inv buf reqs cb HF HA es [] _ (inv_make buf reqs cb)) as (f & E & I & S0).
  destruct (get_full buf reqs cb HF HA _ f I (or_introl (S0 Hn))) as (final & f' & G & R & S').
  exists f, final, f'. split; [exact E|]. split; [exact G|]. split; [exact R|].
  intros es' f'' E'. unfold get. rewrite (consumed_stays es' f' f'' S' E'). reflexivity.
Qed.

Lemma completed_inverted (buf : list T) reqs cb es : Forall (fits (zlen buf)) reqs -> apart reqs -> ~ In Ask es ->
  exists f, history es (make buf reqs cb) = Ok f /\
    (fst (completed f) = true <-> pending f <> []) /\
    (fst (completed f) = false ->
       exists final f', get (snd (completed f)) = Ok (apply_all (callbacks es) (cb final), f') /\ received reqs buf final) /\
    (fst (completed f) = true ->
       exists finished f', Permutation reqs (finished ++ pending f) /\ received finished buf (recvbuf f) /\
         get (snd (completed f)) = Ok (apply_all (callbacks es) (cb (recvbuf f)), f')).
Proof.
  intros HF HA Hn. destruct (history_inv buf reqs cb HF HA es [] _ (inv_make buf reqs cb)) as (f & E & I & S0).
  specialize (S0 Hn). cbn [make status_] in S0. exists f. split; [exact E|]. unfold completed. rewrite S0.
  destruct (pending f) as [|r t] eqn:EP; cbn [Z.eqb fst snd].
  - split; [split; [discriminate|congruence]|]. split; [|discriminate]. intros _.
    destruct (get_full buf reqs cb HF HA _ f I (or_introl S0)) as (final & f' & G & R & S'). eauto.
  - split; [split; [discriminate|reflexivity]|]. split; [discriminate|]. intros _.
    destruct I as (fin & P & R & C). exists fin. eexists. rewrite EP in P. split; [exact P|]. split; [exact R|].
    unfold get. cbn [status_ callback recvbuf]. rewrite C. reflexivity.
Qed.
End P.

Lemma made_ready {T} (buf : list T) :
  (exists f', get (make_write buf) = Ok (buf, f')) /\ (exists f', get (make_read buf) = Ok (buf, f')) /\
  fst (completed (make_write buf)) = true /\ fst (completed (make_read buf)) = true.
Proof. repeat split; eexists; reflexivity. Qed.

Lemma completed_stale : exists (buf : list Z) reqs f f',
  fits (zlen buf) reqs /\ completed (make buf [reqs] (fun b => b)) = (true, f) /\ get f = Ok (buf, f') /\
  ~ received [reqs] buf buf.
Proof.
  exists [0; 0], (1, [7]). eexists _, _. split; [split; cbn; lia|]. split; [reflexivity|]. split; [reflexivity|].
  intros (_ & H & _). specialize (H (1, [7]) 0 7 (or_introl eq_refl) eq_refl). cbn in H. discriminate.
Qed.
