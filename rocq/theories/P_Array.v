From Verif Require Import Prelude M_Array.
Local Open Scope Z_scope.

Lemma freeze_ok {A} (w : list (option A)) l : freeze w = Ok l <-> w = map Some l.
Proof.
  unfold freeze. rewrite mapM_ok. split.
  - induction 1 as [|o x w l H _ IH]; [reflexivity|]. destruct o; [|discriminate]. injection H as ->. cbn. congruence.
  - intros ->. induction l; cbn; constructor; auto.
Qed.

Lemma freeze_total {A} (w : list (option A)) :
  (forall k, 0 <= k < zlen w -> exists x, zget w k = Ok (Some x)) ->
  exists l, freeze w = Ok l /\ zlen l = zlen w /\
  forall k x, zget w k = Ok (Some x) <-> zget l k = Ok x.
Proof.
  intros H. assert (exists l, w = map Some l) as (l & ->).
  { induction w as [|o w IH]; [exists []; reflexivity|].
    destruct (H 0) as (x & Hx); [rewrite zlen_cons; pose proof (zlen_nonneg w); lia|].
    cbn in Hx. injection Hx as ->. destruct IH as (l & ->); [|exists (x :: l); reflexivity].
    intros k Hk. destruct (H (k + 1)) as (y & Hy); [rewrite zlen_cons; lia|]. exists y.
    apply zget_ok in Hy as [_ Hy]. apply zget_ok. split; [lia|].
    replace (Z.to_nat (k + 1)) with (S (Z.to_nat k)) in Hy by lia. exact Hy. }
  exists l. split; [apply freeze_ok; reflexivity|]. split; [rewrite zlen_map; reflexivity|].
  intros k x. rewrite zget_map. destruct (zget l k); cbn; split; intros E; try discriminate; congruence.
Qed.

Lemma blank_ok {A} n : 0 <= n -> @blank A n = Ok (repeat None (Z.to_nat n)).
Proof. intros; unfold blank. destruct (Z.ltb_spec n 0); [lia|reflexivity]. Qed.
Lemma filled_ok {A} n (v : A) : 0 <= n -> filled n v = Ok (repeat v (Z.to_nat n)).
Proof. intros; unfold filled. destruct (Z.ltb_spec n 0); [lia|reflexivity]. Qed.
Lemma zlen_repeat {A} (x : A) n : zlen (repeat x n) = Z.of_nat n.
Proof. unfold zlen; rewrite repeat_length; reflexivity. Qed.
Lemma zget_repeat {A} (x : A) n i : 0 <= i < Z.of_nat n -> zget (repeat x n) i = Ok x.
Proof.
  intros H. apply zget_ok. split; [lia|]. rewrite nth_error_repeat by lia. reflexivity.
Qed.

Lemma zget_combine {A B} (l : list A) (m : list B) i : zlen l = zlen m ->
  zget (combine l m) i = (a <- zget l i ;; b <- zget m i ;; Ok (a, b)).
Proof.
  unfold zget, zlen. intros Hl. destruct (i <? 0); [reflexivity|]. generalize (Z.to_nat i). clear i.
  assert (length l = length m) as H by lia. clear Hl. revert m H.
  induction l as [|x l IH]; intros [|y m] H n; try discriminate; [destruct n; reflexivity|].
  destruct n; [reflexivity|]. cbn [combine nth_error]. apply IH. cbn in H. lia.
Qed.

Lemma foldM_ext {A S} (f g : S -> A -> res S) l s :
  (forall x s, In x l -> f s x = g s x) -> foldM f l s = foldM g l s.
Proof.
  revert s; induction l as [|x l IH]; cbn; intros s H; [reflexivity|].
  rewrite H by (left; reflexivity). destruct (g s x); cbn; auto.
Qed.
Lemma foldM_map {A B S} (f : S -> B -> res S) (g : A -> B) l s :
  foldM f (map g l) s = foldM (fun s x => f s (g x)) l s.
Proof. revert s; induction l as [|x l IH]; cbn; intros s; [reflexivity|]. destruct (f s (g x)); cbn; auto. Qed.
Lemma foldM_flat_map {A B S} (f : S -> B -> res S) (g : A -> list B) l s :
  foldM f (flat_map g l) s = foldM (fun s x => foldM f (g x) s) l s.
Proof.
  revert s; induction l as [|x l IH]; cbn; intros s; [reflexivity|]. rewrite foldM_app.
  destruct (foldM f (g x) s); cbn; auto.
Qed.

(** The list as a whole, when each index has an answer. *)
Lemma zrange_as_map {A} (l : list A) : forall d, l = map (fun i => nth (Z.to_nat i) l d) (zrange (zlen l)).
Proof.
  intros d. apply list_eq_nth. intros n. rewrite nth_error_map.
  destruct (Nat.lt_ge_cases n (length l)) as [H|H].
  - rewrite zrange_nth by (unfold zlen; lia). cbn. rewrite Nat2Z.id. apply nth_error_nth'. exact H.
  - rewrite (proj2 (nth_error_None l n)) by lia. rewrite (proj2 (nth_error_None _ n)); [reflexivity|].
    rewrite zrange_length. unfold zlen. lia.
Qed.

Section blocks.
Context {A : Type}.

Lemma copy_block_ok width (src : list A) a dst b :
  0 <= width -> 0 <= a -> (a + 1) * width <= zlen src -> 0 <= b -> (b + 1) * width <= zlen dst ->
  exists d, copy_block width src a dst b = Ok d /\ zlen d = zlen dst /\
  (forall j, 0 <= j < width -> exists x, zget src (a * width + j) = Ok x /\ zget d (b * width + j) = Ok (Some x)) /\
  (forall k, ~ (b * width <= k < (b + 1) * width) -> zget d k = zget dst k).
Proof.
  intros Hw Ha Has Hb Hbd. unfold copy_block.
  destruct (forM_invariant (fun i d => zlen d = zlen dst /\
     (forall j, 0 <= j < i -> exists x, zget src (a * width + j) = Ok x /\ zget d (b * width + j) = Ok (Some x)) /\
     (forall k, ~ (b * width <= k < b * width + i) -> zget d k = zget dst k)) width dst
     (fun d j => x <- zget src (a * width + j) ;; zset d (b * width + j) (Some x)) Hw) as (d & E & H1 & H2 & H3).
  - split; [reflexivity|]. split; intros; [lia|reflexivity].
  - intros i d Hi (H1 & H2 & H3).
    destruct (zget_in_range src (a * width + i)) as (x & Hx); [nia|].
    destruct (zset_in_range d (b * width + i) (Some x)) as (d' & Hd'); [nia|].
    exists d'. rewrite Hx. cbn [bind]. split; [exact Hd'|]. split; [rewrite (zset_zlen _ _ _ _ Hd'); exact H1|].
    split.
    + intros j Hj. destruct (Z.eq_dec j i) as [->|Hne].
      * exists x. split; [exact Hx|]. eapply zset_get_eq; eauto.
      * destruct (H2 j) as (y & Hy & Hz); [lia|]. exists y. split; [exact Hy|].
        rewrite (zset_get_ne _ _ _ _ _ Hd') by lia. exact Hz.
    + intros k Hk. rewrite (zset_get_ne _ _ _ _ _ Hd') by lia. apply H3. lia.
  - exists d. split; [exact E|]. split; [exact H1|]. split; [exact H2|]. intros k Hk. apply H3. nia.
Qed.

Definition scatter width (src : list A) (pairs : list (Z * Z)) dst :=
  foldM (fun d p => copy_block width src (fst p) d (snd p)) pairs dst.

Lemma block_ne width b b' j j' : 0 <= j < width -> 0 <= j' < width -> b <> b' -> b * width + j <> b' * width + j'.
Proof. intros. nia. Qed.

Lemma scatter_ok width (src : list A) pairs : forall dst,
  0 <= width -> NoDup (map snd pairs) ->
  (forall a b, In (a, b) pairs -> 0 <= a /\ (a + 1) * width <= zlen src /\ 0 <= b /\ (b + 1) * width <= zlen dst) ->
  exists d, scatter width src pairs dst = Ok d /\ zlen d = zlen dst /\
  (forall a b j, In (a, b) pairs -> 0 <= j < width ->
     exists x, zget src (a * width + j) = Ok x /\ zget d (b * width + j) = Ok (Some x)) /\
  (forall b j, ~ In b (map snd pairs) -> 0 <= j < width -> zget d (b * width + j) = zget dst (b * width + j)).
Proof.
  induction pairs as [|[a b] pairs IH]; intros dst Hw Hnd Hr; cbn [map snd] in *.
  - exists dst. split; [reflexivity|]. split; [reflexivity|]. split; [intros ? ? ? []|reflexivity].
  - inversion Hnd as [|? ? Hn1 Hn2]; subst.
    destruct (Hr a b) as (R1 & R2 & R3 & R4); [left; reflexivity|].
    destruct (copy_block_ok width src a dst b) as (d1 & E1 & L1 & G1 & F1); auto.
    destruct (IH d1) as (d & E & L & G & F); auto.
    { intros a' b' Hin. rewrite L1. apply Hr. right; exact Hin. }
    exists d. unfold scatter in *. cbn [foldM fst snd]. rewrite E1. cbn [bind]. split; [exact E|].
    split; [congruence|]. split.
    + intros a' b' j [Heq|Hin] Hj.
      * injection Heq as <- <-. destruct (G1 j Hj) as (x & Hx & Hy). exists x. split; [exact Hx|].
        rewrite F by auto. exact Hy.
      * apply G; auto.
    + intros b' j Hni Hj. rewrite F by (auto; intros C; apply Hni; right; exact C).
      apply F1. assert (b <> b') as Hne by (intros ->; apply Hni; left; reflexivity). nia.
Qed.
End blocks.
