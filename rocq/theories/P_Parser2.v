(** Configurations and their closure. *)
From Verif Require Import Prelude M_Automaton M_Grammar M_Parser S_Grammar P_Automaton P_Automaton5 P_Parser.
Local Open Scope Z_scope.

(* ------------------------------------------------------------------ *)
(** make_configs *)

Definition prod_configs (i : Z) (q : production) : list config := map (fun j => (i, j)) (zrange (zlen (rhs q) + 1)).
Fixpoint configs_from (i : Z) (ps : list production) : list config :=
  match ps with [] => [] | q :: ps => prod_configs i q ++ configs_from (i + 1) ps end.

Lemma make_configs_eq g : make_configs g = Ok (configs_from 0 (productions g)).
Proof.
  unfold make_configs.
  assert (forall f ps i0, (forall k q, zget ps k = Ok q -> f (i0 + k) = Ok (prod_configs (i0 + k) q)) ->
    exists r, mapM f (map (fun k => i0 + k) (zrange (zlen ps))) = Ok r /\ List.concat r = configs_from i0 ps) as X.
  { intros f ps. induction ps as [|q ps IH]; intros i0 Hf; [exists []; split; reflexivity|].
    replace (map (fun k => i0 + k) (zrange (zlen (q :: ps)))) with (i0 :: map (fun k => (i0 + 1) + k) (zrange (zlen ps))).
    2:{ rewrite (zrange_split_0 (zlen (q :: ps))) by (rewrite zlen_cons; pose proof (zlen_nonneg ps); lia).
        cbn [map]. rewrite map_map. f_equal; [lia|]. rewrite zlen_cons. replace (zlen ps + 1 - 1) with (zlen ps) by lia.
        apply map_ext. intros. lia. }
    destruct (IH (i0 + 1)) as (r & Er & Ec).
    { intros k q' G. replace (i0 + 1 + k) with (i0 + (1 + k)) by lia. apply Hf. apply zget_ok in G as [B G]. apply zget_ok. split; [lia|].
      replace (Z.to_nat (1 + k)) with (S (Z.to_nat k)) by lia. exact G. }
    exists (prod_configs i0 q :: r). cbn [mapM]. replace i0 with (i0 + 0) at 1 by lia. rewrite (Hf 0 q eq_refl). cbn [bind]. rewrite Er. cbn [bind List.concat configs_from].
    rewrite Ec. replace (i0 + 0) with i0 by lia. split; reflexivity. }
  destruct (X (fun i => p <- vget (productions g) i ;; Ok (map (fun j => (i, j)) (zrange (zlen (rhs p) + 1)))) (productions g) 0) as (r & Er & Ec).
  - intros k q G. replace (vget (productions g) (0 + k)) with (Ok q) by (symmetry; apply vget_ok; exact G). reflexivity.
  - replace (map (fun k => 0 + k) (zrange (zlen (productions g)))) with (zrange (zlen (productions g))) in Er.
    + match goal with |- bind ?m _ = _ => replace m with (Ok r) by (symmetry; exact Er) end. exact (f_equal Ok Ec).
    + rewrite <- (map_id (zrange _)) at 1. apply map_ext. intros; lia.
Qed.

Lemma zlen_prod_configs i q : zlen (prod_configs i q) = zlen (rhs q) + 1.
Proof. unfold prod_configs. rewrite zlen_map, zlen_zrange; [reflexivity|]. pose proof (zlen_nonneg (rhs q)). lia. Qed.

Lemma prod_configs_get i q c : 0 <= c <= zlen (rhs q) -> zget (prod_configs i q) c = Ok (i, c).
Proof. intros R. unfold prod_configs. rewrite zget_map, zget_zrange by lia. reflexivity. Qed.

Lemma configs_get : forall ps i0 c i d, zget (configs_from i0 ps) c = Ok (i, d) ->
  exists q, zget ps (i - i0) = Ok q /\ 0 <= d <= zlen (rhs q) /\ i0 <= i /\
  (d < zlen (rhs q) -> zget (configs_from i0 ps) (c + 1) = Ok (i, d + 1)) /\
  (0 < d -> zget (configs_from i0 ps) (c - 1) = Ok (i, d - 1)).
Proof.
  induction ps as [|q ps IH]; intros i0 c i d G.
  - apply zget_bounds in G. change (zlen (@nil config)) with 0 in G. cbn in G. lia.
  - cbn [configs_from] in G. pose proof (zlen_prod_configs i0 q) as Lp. pose proof (zlen_nonneg (rhs q)) as Ln.
    assert (0 <= c) as C0 by (apply zget_bounds in G; lia).
    destruct (Z_lt_le_dec c (zlen (rhs q) + 1)) as [Hc|Hc].
    + rewrite zget_app_l in G by lia. rewrite prod_configs_get in G by lia. injection G as <- <-.
      exists q. replace (i0 - i0) with 0 by lia. split; [reflexivity|]. split; [lia|]. split; [lia|]. cbn [configs_from]. split; intros X.
      * rewrite zget_app_l by lia. apply prod_configs_get. lia.
      * rewrite zget_app_l by lia. apply prod_configs_get. lia.
    + rewrite zget_app_r in G by lia. rewrite Lp in G. destruct (IH (i0 + 1) _ _ _ G) as (q' & Gq & R & Ri & Nx & Pv).
      exists q'. split.
      { apply zget_ok in Gq as [B Gq]. apply zget_ok. split; [lia|]. replace (Z.to_nat (i - i0)) with (S (Z.to_nat (i - (i0 + 1)))) by lia. exact Gq. }
      split; [exact R|]. split; [lia|]. cbn [configs_from]. split; intros X.
      * rewrite zget_app_r by lia. rewrite Lp. replace (c + 1 - (zlen (rhs q) + 1)) with (c - (zlen (rhs q) + 1) + 1) by lia. auto.
      * specialize (Pv X). assert (0 <= c - (zlen (rhs q) + 1) - 1) by (apply zget_bounds in Pv; lia).
        rewrite zget_app_r by lia. rewrite Lp. replace (c - 1 - (zlen (rhs q) + 1)) with (c - (zlen (rhs q) + 1) - 1) by lia. auto.
Qed.

Lemma configs_all : forall ps i0 k q d, zget ps k = Ok q -> 0 <= d <= zlen (rhs q) -> exists c, zget (configs_from i0 ps) c = Ok (i0 + k, d).
Proof.
  induction ps as [|q0 ps IH]; intros i0 k q d G R.
  - apply zget_bounds in G. change (zlen (@nil production)) with 0 in G. lia.
  - assert (0 <= k) as K0 by (apply zget_bounds in G; lia). cbn [configs_from]. destruct (Z.eq_dec k 0) as [->|Nk].
    + injection G as <-. exists d. rewrite zget_app_l by (rewrite zlen_prod_configs; lia). rewrite prod_configs_get by lia. f_equal. f_equal. lia.
    + destruct (IH (i0 + 1) (k - 1) q d) as (c & Gc); [|exact R|].
      { apply zget_ok in G as [B G]. apply zget_ok. split; [lia|]. replace (Z.to_nat k) with (S (Z.to_nat (k - 1))) in G by lia. exact G. }
      exists (zlen (prod_configs i0 q0) + c). assert (0 <= c) by (apply zget_bounds in Gc; lia). rewrite zget_app_r by lia.
      replace (zlen (prod_configs i0 q0) + c - zlen (prod_configs i0 q0)) with c by lia. rewrite Gc. f_equal. f_equal. lia.
Qed.

Lemma configs_unique : forall ps i0 c c' x, zget (configs_from i0 ps) c = Ok x -> zget (configs_from i0 ps) c' = Ok x -> c = c'.
Proof.
  induction ps as [|q ps IH]; intros i0 c c' [i d] G G'.
  - apply zget_bounds in G. change (zlen (@nil config)) with 0 in G. cbn in G. lia.
  - pose proof (zlen_prod_configs i0 q) as Lp. pose proof (zlen_nonneg (rhs q)) as Ln. cbn [configs_from] in *.
    assert (0 <= c) as C0 by (apply zget_bounds in G; lia). assert (0 <= c') as C0' by (apply zget_bounds in G'; lia).
    destruct (Z_lt_le_dec c (zlen (rhs q) + 1)) as [Hc|Hc], (Z_lt_le_dec c' (zlen (rhs q) + 1)) as [Hc'|Hc'].
    + rewrite zget_app_l in G, G' by lia. rewrite prod_configs_get in G, G' by lia. congruence.
    + exfalso. rewrite zget_app_l in G by lia. rewrite zget_app_r in G' by lia. rewrite prod_configs_get in G by lia.
      apply configs_get in G' as (_ & _ & _ & X & _). injection G as <- _. lia.
    + exfalso. rewrite zget_app_l in G' by lia. rewrite zget_app_r in G by lia. rewrite prod_configs_get in G' by lia.
      apply configs_get in G as (_ & _ & _ & X & _). injection G' as <- _. lia.
    + rewrite zget_app_r in G, G' by lia. pose proof (IH (i0 + 1) _ _ _ G G'). lia.
Qed.

(* ------------------------------------------------------------------ *)

Section Grammar.
Variable g : grammar.
Hypothesis A : augmented g.
Let cs := configs_from 0 (productions g).
Let n := zlen cs.

(** Configuration c is production i, which is q, with the dot at d. *)
Definition is_config (c i d : Z) (q : production) : Prop := zget cs c = Ok (i, d) /\ zget (productions g) i = Ok q.

Lemma config_ex c : 0 <= c < n -> exists i d q, is_config c i d q /\ 0 <= d <= zlen (rhs q).
Proof.
  intros R. destruct (zget_in_range cs c R) as ([i d] & G). destruct (configs_get _ _ _ _ _ G) as (q & Gq & Rd & _).
  replace (i - 0) with i in Gq by lia. exists i, d, q. split; [split; assumption | exact Rd].
Qed.
Lemma config_dot c i d q : is_config c i d q -> 0 <= d <= zlen (rhs q) /\ 0 <= c < n.
Proof.
  intros [G Gq]. destruct (configs_get _ _ _ _ _ G) as (q' & Gq' & Rd & _). replace (i - 0) with i in Gq' by lia.
  rewrite Gq in Gq'. injection Gq' as <-. split; [exact Rd | apply zget_bounds in G; exact G].
Qed.
Lemma config_next c i d q : is_config c i d q -> d < zlen (rhs q) -> is_config (c + 1) i (d + 1) q.
Proof.
  intros [G Gq] R. destruct (configs_get _ _ _ _ _ G) as (q' & Gq' & Rd & _ & Nx & _). replace (i - 0) with i in Gq' by lia.
  rewrite Gq in Gq'. injection Gq' as <-. split; auto.
Qed.
Lemma config_prev c i d q : is_config c i d q -> 0 < d -> is_config (c - 1) i (d - 1) q.
Proof. intros [G Gq] R. destruct (configs_get _ _ _ _ _ G) as (_ & _ & _ & _ & _ & Pv). split; auto. Qed.
Lemma config_fun c i d q i' d' q' : is_config c i d q -> is_config c i' d' q' -> i = i' /\ d = d' /\ q = q'.
Proof. intros [G Gq] [G' Gq']. rewrite G in G'. injection G' as <- <-. rewrite Gq in Gq'. injection Gq' as <-. auto. Qed.
Lemma config_inj c c' i d q q' : is_config c i d q -> is_config c' i d q' -> c = c'.
Proof. intros [G _] [G' _]. eapply configs_unique; eassumption. Qed.
Lemma config_all i q d : zget (productions g) i = Ok q -> 0 <= d <= zlen (rhs q) -> exists c, is_config c i d q.
Proof.
  intros G R. destruct (configs_all _ 0 i q d G R) as (c & Gc). exists c. split; [exact Gc | exact G].
Qed.

(** x follows the dot of c. *)
Definition dotted (c x : Z) : Prop := exists i d q, is_config c i d q /\ zget (rhs q) d = Ok x.

Lemma dotted_fun c x y : dotted c x -> dotted c y -> x = y.
Proof.
  intros (i & d & q & I & G) (i' & d' & q' & I' & G'). destruct (config_fun _ _ _ _ _ _ _ I I') as (<- & <- & <-). congruence.
Qed.
Lemma dotted_range c x : dotted c x -> 0 <= x < nsymbols g - 1 /\ x <> nterminals g - 1 /\ 0 <= c < n.
Proof.
  intros (i & d & q & I & G). destruct (aug_rhs g A q x) as [H1 H2]; [destruct I as [_ I]; apply zget_In in I; exact I | apply zget_In in G; exact G|].
  split; [exact H1|]. split; [exact H2|]. eapply config_dot; exact I.
Qed.

Lemma after_dot_ok c : 0 <= c < n ->
  (exists x, after_dot cs g c = Ok (Some x) /\ dotted c x) \/ (after_dot cs g c = Ok None /\ exists i q, is_config c i (zlen (rhs q)) q).
Proof.
  intros R. destruct (config_ex c R) as (i & d & q & I & Rd). destruct I as [G Gq]. unfold after_dot.
  replace (vget cs c) with (Ok (i, d)) by (symmetry; apply vget_ok; exact G). cbn [bind fst snd].
  replace (vget (productions g) i) with (Ok q) by (symmetry; apply vget_ok; exact Gq). cbn [bind].
  destruct (Z.eqb_spec d (zlen (rhs q))) as [->|N].
  - right. split; [reflexivity|]. exists i, q. split; assumption.
  - left. destruct (zget_in_range (rhs q) d ltac:(lia)) as (x & Gx). exists x.
    replace (vget (rhs q) d) with (Ok x) by (symmetry; apply vget_ok; exact Gx). split; [reflexivity|]. exists i, d, q. split; [split; assumption | exact Gx].
Qed.
Lemma after_dot_none c i q : is_config c i (zlen (rhs q)) q -> after_dot cs g c = Ok None /\ forall x, ~ dotted c x.
Proof.
  intros I. split.
  - destruct I as [G Gq]. unfold after_dot.
    replace (vget cs c) with (Ok (i, zlen (rhs q))) by (symmetry; apply vget_ok; exact G). cbn [bind fst snd].
    replace (vget (productions g) i) with (Ok q) by (symmetry; apply vget_ok; exact Gq). cbn [bind]. rewrite Z.eqb_refl. reflexivity.
  - intros x (i' & d & q' & I' & Gx). destruct (config_fun _ _ _ _ _ _ _ I I') as (<- & <- & <-). apply zget_bounds in Gx. lia.
Qed.

(* ------------------------------------------------------------------ *)
(** get_left_hand_sides_to_start_configs *)

Definition starts_ok (m : Z) (l : list (list Z)) : Prop :=
  zlen l = nsymbols g /\
  forall x e, zget l x = Ok e -> forall c, In c e <-> c < m /\ exists i q, is_config c i 0 q /\ lhs q = x.

Lemma start_configs_ok : exists l, get_left_hand_sides_to_start_configs cs g = Ok l /\ starts_ok n l.
Proof.
  unfold get_left_hand_sides_to_start_configs. fold n. apply (forM_invariant starts_ok).
  - apply zlen_nonneg.
  - destruct (aug_counts g A) as [C1 C2]. split.
    + unfold zlen. rewrite repeat_length. lia.
    + intros x e G c. apply zget_In in G. apply repeat_spec in G. subst e. split; [intros [] |].
      intros (Hc & i & q & I & _). apply config_dot in I. lia.
  - intros c l R [Ll Hl]. destruct (config_ex c R) as (i & d & q & I & Rd). pose proof I as [G Gq].
    replace (vget cs c) with (Ok (i, d)) by (symmetry; apply vget_ok; exact G). cbn [bind fst snd].
    destruct (Z.ltb_spec 0 d) as [Hd|Hd].
    + exists l. split; [reflexivity|]. split; [exact Ll|]. intros x e Ge c'. rewrite (Hl x e Ge). split.
      * intros [H1 H2]. split; [lia | exact H2].
      * intros (H1 & i' & q' & I' & El). split; [|eauto]. destruct (Z.eq_dec c' c) as [->|]; [|lia].
        destruct (config_fun _ _ _ _ _ _ _ I I') as (_ & E & _). lia.
    + replace d with 0 in * by lia. replace (vget (productions g) i) with (Ok q) by (symmetry; apply vget_ok; exact Gq). cbn [bind].
      pose proof (aug_lhs g A q (zget_In _ _ _ Gq)) as Rl. destruct (zget_in_range l (lhs q) ltac:(lia)) as (e & Ge).
      replace (vget l (lhs q)) with (Ok e) by (symmetry; apply vget_ok; exact Ge). cbn [bind].
      destruct (zset_in_range l (lhs q) (e ++ [c]) ltac:(lia)) as (l' & Es). exists l'. split.
      { unfold vset. replace ((0 <=? lhs q) && (lhs q <? zlen l)) with true; [exact Es|]. symmetry. apply andb_true_iff. split; [apply Z.leb_le | apply Z.ltb_lt]; lia. }
      split; [erewrite zset_zlen by exact Es; exact Ll|]. intros x e' Ge' c'.
      destruct (Z.eq_dec x (lhs q)) as [->|Nx].
      * rewrite (zset_get_eq _ _ _ _ Es) in Ge'. injection Ge' as <-. rewrite in_app_iff, (Hl _ _ Ge). split.
        -- intros [[H1 H2]|[<-|[]]]; [split; [lia | exact H2]|]. split; [lia|]. exists i, q. auto.
        -- intros (H1 & i' & q' & I' & El). destruct (Z.eq_dec c' c) as [->|]; [right; left; reflexivity|]. left. split; [lia | eauto].
      * rewrite (zset_get_ne _ _ _ _ _ Es) in Ge' by congruence. rewrite (Hl _ _ Ge'). split.
        -- intros [H1 H2]. split; [lia | exact H2].
        -- intros (H1 & i' & q' & I' & El). split; [|eauto]. destruct (Z.eq_dec c' c) as [->|]; [|lia].
           destruct (config_fun _ _ _ _ _ _ _ I I') as (_ & _ & <-). congruence.
Qed.
End Grammar.
