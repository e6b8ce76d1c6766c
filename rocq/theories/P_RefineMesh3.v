(** Products of splits as sets of vertices. *)
From Coq Require Import String Permutation.
From Verif Require Import Prelude M_Array M_Template M_Align S_Align S_Unique P_Unique S_Transit M_Tags M_MeshAdj S_MeshAdj S_Swap3d S_Swap2d S_Refine S_RefineMesh P_RefineMesh1.
Local Open Scope Z_scope.

Ltac perm := match goal with
 | |- Permutation [] [] => apply perm_nil
 | |- Permutation (?x :: ?l) (?x :: ?m) => apply perm_skip; perm
 | |- Permutation (?x :: ?l) (?y :: ?x :: ?m) => apply (@Permutation_cons_app _ l [y] m x); cbn [app]; perm
 | |- Permutation (?x :: ?l) (?y :: ?z :: ?x :: ?m) => apply (@Permutation_cons_app _ l [y; z] m x); cbn [app]; perm
 | |- Permutation (?x :: ?l) (?y :: ?z :: ?w :: ?x :: ?m) => apply (@Permutation_cons_app _ l [y; z; w] m x); cbn [app]; perm
 end.
Lemma oriented_perm d l l' : oriented_as d l l' -> Permutation l l'.
Proof.
  unfold oriented_as. destruct (d =? 3); [|destruct (d =? 2); [|intros ->; apply Permutation_refl]].
  - unfold same_orientation. destruct l as [|a [|b [|c [|e [|? ?]]]]]; try contradiction. intros H. cbn [In] in H. decompose [or] H; try contradiction; subst l'; perm.
  - unfold same_turn. destruct l as [|a [|b [|c [|? ?]]]]; try contradiction. intros H. cbn [In] in H. decompose [or] H; try contradiction; subst l'; perm.
Qed.
Lemma perm_polygon (l l' : list Z) : Permutation l l' -> zlen l = 2 \/ zlen l = 3 -> same_polygon l l'.
Proof.
  intros P [L|L].
  - destruct l as [|a [|b [|? ?]]]; unfold zlen in L; cbn in L; try lia. apply Permutation_length_2_inv in P as [->| ->]; left; [exists [], [a; b]|exists [a], [b]]; split; reflexivity.
  - pose proof (Permutation_length P) as Lp. destruct l as [|a [|b [|c [|? ?]]]]; unfold zlen in L; cbn in L; try lia. destruct l' as [|x [|y [|z [|? ?]]]]; cbn in Lp; try lia. clear L Lp.
    assert (In x [a; b; c]) as I by (apply (Permutation_in x (Permutation_sym P)); left; reflexivity). destruct I as [->|[->|[->|[]]]].
    + apply Permutation_cons_inv in P. apply Permutation_length_2_inv in P as [E|E]; injection E as -> ->; [left; exists [], [x; b; c]; split; reflexivity|right; exists [c; b], [x]; split; reflexivity].
    + assert (Permutation [x; a; c] [x; y; z]) as Q by (apply Permutation_trans with (l' := [a; x; c]); [perm|exact P]). apply Permutation_cons_inv in Q. apply Permutation_length_2_inv in Q as [E|E]; injection E as -> ->; [right; exists [c], [x; a]; split; reflexivity|left; exists [a], [x; c]; split; reflexivity].
    + assert (Permutation [x; a; b] [x; y; z]) as Q by (apply Permutation_trans with (l' := [a; b; x]); [perm|exact P]). apply Permutation_cons_inv in Q. apply Permutation_length_2_inv in Q as [E|E]; injection E as -> ->; [left; exists [a; b], [x]; split; reflexivity|right; exists [], [x; b; a]; split; reflexivity].
Qed.

Section shapes.
Context (T : topology) (HT : valid_topology T) (HS : simplicial T) (keys : list Z) (HK : splittable T keys).
Local Notation D := (t_dim T).
Definition shape (d : Z) (o : origin) (k : Z) (B : list Z) : Prop := In k keys /\
  match o with
  | Kept _ => False
  | Half e k' s => k' = k /\ 1 <= d /\ exists row a b, ent_verts T d e row /\ ent_verts T 1 k [a; b] /\
      (s = 0 /\ Permutation row (a :: B) /\ In b B \/ s = 1 /\ Permutation row (b :: B) /\ In a B)
  | Cut e k' => k' = k /\ d < D /\ exists row a b, ent_verts T (d + 1) e row /\ ent_verts T 1 k [a; b] /\ Permutation row (a :: b :: B)
  end.
Definition pset (d k : Z) (B : list Z) : Prop := In k keys /\ NoDup B /\ zlen B = d /\
  exists a b d' e row, ent_verts T 1 k [a; b] /\ ~ (In a B /\ In b B) /\ 1 <= d' <= D /\ ent_verts T d' e row /\ incl (a :: b :: B) row.

Lemma zlen_cons_ (x : Z) l : zlen (x :: l) = zlen l + 1. Proof. unfold zlen. cbn [length]. lia. Qed.
Lemma shape_pset d o k B : 0 <= d <= D -> shape d o k B -> pset d k B.
Proof.
  intros Hd [I S]. pose proof (v_dim T HT) as HD. destruct o as [e|e k' s|e k']; [contradiction| |].
  - destruct S as (-> & Hd1 & row & a & b & R & Rk & C). destruct (ent_facts T HT HS d e row ltac:(lia) R) as (N & L & _). destruct (ent_facts T HT HS 1 k _ ltac:(lia) Rk) as (Nk & _).
    destruct C as [(-> & P & Ib)|(-> & P & Ia)]; pose proof (Permutation_NoDup P N) as N'; inversion N' as [|? ? Nx NB]; subst; (split; [exact I|]); (split; [exact NB|]); rewrite (perm_len _ _ P), zlen_cons_ in L; (split; [lia|]); exists a, b, d, e, row; (split; [exact Rk|]); (split; [tauto|]); (split; [lia|]); (split; [exact R|]); intros x Hx; apply (Permutation_in x (Permutation_sym P)); cbn in *; intuition congruence.
  - destruct S as (-> & Hd1 & row & a & b & R & Rk & P). destruct (ent_facts T HT HS (d + 1) e row ltac:(lia) R) as (N & L & _). pose proof (Permutation_NoDup P N) as N'. inversion N' as [|? ? Nx Nr]; subst. inversion Nr as [|? ? Ny NB]; subst. rewrite (perm_len _ _ P), !zlen_cons_ in L.
    split; [exact I|]. split; [exact NB|]. split; [lia|]. exists a, b, (d + 1), e, row. split; [exact Rk|]. split; [tauto|]. split; [lia|]. split; [exact R|]. intros x Hx. apply (Permutation_in x (Permutation_sym P)), Hx.
Qed.
Lemma pset_ends d k B a b : pset d k B -> ent_verts T 1 k [a; b] -> ~ (In a B /\ In b B) /\ exists d' e row, 1 <= d' <= D /\ ent_verts T d' e row /\ incl (a :: b :: B) row.
Proof.
  intros (I & N & L & a' & b' & d' & e & row & Rk & X & Hd & R & Inc) Rk'. pose proof (ent_unique T 1 k _ _ ltac:(lia) Rk Rk') as E. injection E as -> ->. eauto 10.
Qed.
Lemma key_row k : In k keys -> exists a b, ent_verts T 1 k [a; b] /\ a <> b.
Proof. intros I. pose proof (v_dim T HT). destruct (ent_row T HT HS 1 k ltac:(lia) (k_edges T keys HK k I)) as (row & R). destruct (edge_row T HT HS k row R) as (a & b & -> & Hab). eauto. Qed.
Lemma shape_of d o : 0 <= d <= D -> makes T keys d o -> (forall e, o <> Kept e) -> exists k B, shape d o k B /\ forall ov mid row', made_of T ov mid d o row' -> Permutation row' (mid k :: map ov B).
Proof.
  intros Hd M NK. pose proof (v_dim T HT) as HD. destruct o as [e|e k s|e k]; [exfalso; eapply NK; reflexivity| |].
  - destruct M as (Hd1 & I & (row & a & b & R & Rk & Ia & Ib) & Hs). destruct (ent_facts T HT HS d e row ltac:(lia) R) as (N & L & _). destruct (ent_facts T HT HS 1 k _ ltac:(lia) Rk) as (Nk & _). assert (a <> b) as Hab by (intros ->; inversion Nk as [|? ? Nx _]; subst; apply Nx; left; reflexivity).
    set (g := if s =? 0 then a else b). assert (In g row) as Ig by (unfold g; destruct (s =? 0); assumption). exists k, (rm g row). split.
    + split; [exact I|]. split; [reflexivity|]. split; [exact Hd1|]. exists row, a, b. split; [exact R|]. split; [exact Rk|]. pose proof (rm_perm g row N Ig) as P. unfold g in *. destruct Hs as [->| ->]; [left|right]; cbn [Z.eqb] in *; (split; [reflexivity|]); (split; [exact P|]); rewrite rm_in; split; auto.
    + intros ov mid row' (row1 & a1 & b1 & R1 & Rk1 & O). assert (row1 = row) as -> by (apply (ent_unique T d e); [lia|assumption|assumption]). pose proof (ent_unique T 1 k _ _ ltac:(lia) Rk Rk1) as E. injection E as <- <-. fold g in O.
      apply oriented_perm in O. apply (Permutation_trans (Permutation_sym O)). apply (Permutation_trans (Permutation_map _ (rm_perm g row N Ig))). cbn [map]. rewrite Z.eqb_refl. apply perm_skip. rewrite (map_ext_in _ ov); [apply Permutation_refl|]. intros x Hx. apply rm_in in Hx as [_ Hx]. destruct (Z.eqb_spec x g); [contradiction|reflexivity].
  - destruct M as (Hd1 & I & (row & a & b & R & Rk & Ia & Ib)). destruct (ent_facts T HT HS (d + 1) e row ltac:(lia) R) as (N & L & _). destruct (ent_facts T HT HS 1 k _ ltac:(lia) Rk) as (Nk & _). assert (a <> b) as Hab by (intros ->; inversion Nk as [|? ? Nx _]; subst; apply Nx; left; reflexivity).
    exists k, (filter (fun x => negb (x =? a) && negb (x =? b)) row). assert (forall x, In x (filter (fun x => negb (x =? a) && negb (x =? b)) row) <-> In x row /\ x <> a /\ x <> b) as FI. { intros x. rewrite filter_In. destruct (Z.eqb_spec x a), (Z.eqb_spec x b); cbn; intuition congruence. } split.
    + split; [exact I|]. split; [reflexivity|]. split; [exact Hd1|]. exists row, a, b. split; [exact R|]. split; [exact Rk|]. apply NoDup_Permutation; [exact N| |].
      * constructor; [cbn; rewrite FI; intros [?|?]; [congruence|tauto]|]. constructor; [rewrite FI; tauto|apply NoDup_filter, N].
      * intros x. cbn. rewrite FI. destruct (Z.eq_dec a x) as [<-|]; [tauto|]. destruct (Z.eq_dec b x) as [<-|]; [tauto|]. intuition congruence.
    + intros ov mid row' (row1 & a1 & b1 & R1 & Rk1 & O). assert (row1 = row) as -> by (apply (ent_unique T (d + 1) e); [lia|assumption|assumption]). pose proof (ent_unique T 1 k _ _ ltac:(lia) Rk Rk1) as E. injection E as <- <-. exact O.
Qed.
Lemma pset_shape d k B : 0 <= d <= D -> pset d k B -> exists o, shape d o k B /\ makes T keys d o.
Proof.
  intros Hd (I & N & L & a & b & d' & e & row & Rk & X & Hd' & R & Inc). pose proof (v_dim T HT) as HD. destruct (ent_facts T HT HS d' e row ltac:(lia) R) as (Nr & Lr & _). destruct (ent_facts T HT HS 1 k _ ltac:(lia) Rk) as (Nk & _). assert (a <> b) as Hab by (intros ->; inversion Nk as [|? ? Nx _]; subst; apply Nx; left; reflexivity).
  assert (forall x, In x B -> 1 <= d) as Hp by (intros x Hx; destruct B; [destruct Hx|rewrite zlen_cons_ in L; pose proof (zlen_nonneg B); lia]).
  assert (forall S : list Z, zlen S - 1 = d \/ zlen S - 1 = d + 1 -> S <> []) as NE by (intros S HL E; rewrite E in HL; unfold zlen in HL; cbn in HL; lia).
  destruct (in_dec Z.eq_dec a B) as [Ia|Ia]; [|destruct (in_dec Z.eq_dec b B) as [Ib|Ib]].
  - assert (~ In b B) as Ib by tauto. assert (zlen (b :: B) - 1 = d) as LS by (rewrite zlen_cons_; lia). destruct (part T HT HS d' e row (b :: B) ltac:(lia) R) as (s & srow & Rs & P); [constructor; assumption|intros x Hx; apply Inc; right; exact Hx|apply NE; auto|]. rewrite LS in Rs.
    exists (Half s k 1). split.
    + split; [exact I|]. split; [reflexivity|]. split; [eauto|]. exists srow, a, b. auto 8.
    + split; [eauto|]. split; [exact I|]. split; [|auto]. exists srow, a, b. split; [exact Rs|]. split; [exact Rk|]. split; apply (Permutation_in _ (Permutation_sym P)); [right; exact Ia|left; reflexivity].
  - assert (zlen (a :: B) - 1 = d) as LS by (rewrite zlen_cons_; lia). destruct (part T HT HS d' e row (a :: B) ltac:(lia) R) as (s & srow & Rs & P); [constructor; assumption|intros x [<-|Hx]; apply Inc; [left; reflexivity|right; right; exact Hx]|apply NE; auto|]. rewrite LS in Rs.
    exists (Half s k 0). split.
    + split; [exact I|]. split; [reflexivity|]. split; [eauto|]. exists srow, a, b. auto 8.
    + split; [eauto|]. split; [exact I|]. split; [|auto]. exists srow, a, b. split; [exact Rs|]. split; [exact Rk|]. split; apply (Permutation_in _ (Permutation_sym P)); [left; reflexivity|right; exact Ib].
  - assert (zlen (a :: b :: B) - 1 = d + 1) as LS by (rewrite !zlen_cons_; lia). assert (NoDup (a :: b :: B)) as NS by (constructor; [intros [?|?]; [congruence|contradiction]|constructor; assumption]). pose proof (incl_len _ _ NS Inc) as Lin.
    destruct (part T HT HS d' e row (a :: b :: B) ltac:(lia) R NS Inc) as (s & srow & Rs & P); [apply NE; auto|]. rewrite LS in Rs. exists (Cut s k). split.
    + split; [exact I|]. split; [reflexivity|]. split; [lia|]. exists srow, a, b. auto.
    + split; [lia|]. split; [exact I|]. exists srow, a, b. split; [exact Rs|]. split; [exact Rk|]. split; apply (Permutation_in _ (Permutation_sym P)); [left; reflexivity|right; left; reflexivity].
Qed.
(** what a shape says about the ends of its edge *)
Lemma shape_ends d o k B : 0 <= d <= D -> shape d o k B -> exists a b, ent_verts T 1 k [a; b] /\
  match o with
  | Kept _ => False
  | Half e k' s => k' = k /\ exists row, ent_verts T d e row /\ (s = 0 /\ Permutation row (a :: B) /\ In b B /\ ~ In a B \/ s = 1 /\ Permutation row (b :: B) /\ In a B /\ ~ In b B)
  | Cut e k' => k' = k /\ d < D /\ exists row, ent_verts T (d + 1) e row /\ Permutation row (a :: b :: B) /\ ~ In a B /\ ~ In b B
  end.
Proof.
  intros Hd [I S]. pose proof (v_dim T HT) as HD. destruct o as [e|e k' s|e k']; [contradiction| |].
  - destruct S as (-> & Hd1 & row & a & b & R & Rk & C). exists a, b. split; [exact Rk|]. split; [reflexivity|]. exists row. split; [exact R|]. destruct (ent_facts T HT HS d e row ltac:(lia) R) as (N & _). destruct C as [(-> & P & Ib)|(-> & P & Ia)]; pose proof (Permutation_NoDup P N) as N'; inversion N'; subst; [left|right]; auto.
  - destruct S as (-> & Hd1 & row & a & b & R & Rk & P). exists a, b. split; [exact Rk|]. split; [reflexivity|]. split; [exact Hd1|]. exists row. split; [exact R|]. split; [exact P|]. destruct (ent_facts T HT HS (d + 1) e row ltac:(lia) R) as (N & _). pose proof (Permutation_NoDup P N) as N'. inversion N' as [|? ? Nx Nr]; subst. inversion Nr; subst. split; [intros Q; apply Nx; right; exact Q|assumption].
Qed.
Lemma shape_once d o o' k B B' : 0 <= d <= D -> shape d o k B -> shape d o' k B' -> Permutation B B' -> o = o'.
Proof.
  intros Hd S S' P. pose proof (v_dim T HT) as HD. destruct (shape_ends d o k B Hd S) as (a & b & Rk & C). destruct (shape_ends d o' k B' Hd S') as (a' & b' & Rk' & C'). pose proof (ent_unique T 1 k _ _ ltac:(lia) Rk Rk') as E. injection E as <- <-. clear S S' Rk'.
  assert (forall x, In x B <-> In x B') as Q by (intros x; split; apply Permutation_in; [exact P|apply Permutation_sym, P]).
  destruct o as [e|e k1 s|e k1]; [contradiction| |]; (destruct o' as [e'|e' k1' s'|e' k1']; [contradiction| |]).
  - destruct C as (-> & row & R & C), C' as (-> & row' & R' & C'). destruct C as [(-> & Pr & Ib & Ia)|(-> & Pr & Ia & Ib)], C' as [(-> & Pr' & Ib' & Ia')|(-> & Pr' & Ia' & Ib')]; try (exfalso; rewrite Q in *; tauto).
    + f_equal. apply (once T HS d e e' row row'); try assumption. apply (Permutation_trans Pr), (Permutation_trans (perm_skip a P)), Permutation_sym, Pr'.
    + f_equal. apply (once T HS d e e' row row'); try assumption. apply (Permutation_trans Pr), (Permutation_trans (perm_skip b P)), Permutation_sym, Pr'.
  - exfalso. destruct C as (-> & row & R & C), C' as (-> & _ & row' & R' & Pr' & N1 & N2). rewrite <- Q in N1, N2. destruct C as [(-> & Pr & Ib & Ia)|(-> & Pr & Ia & Ib)]; contradiction.
  - exfalso. destruct C' as (-> & row & R & C1), C as (-> & _ & row' & R' & Pr' & N1 & N2). rewrite Q in N1, N2. destruct C1 as [(-> & Pr & Ib & Ia)|(-> & Pr & Ia & Ib)]; contradiction.
  - destruct C as (-> & Hl & row & R & Pr & _), C' as (-> & _ & row' & R' & Pr' & _). f_equal. apply (once T HS (d + 1) e e' row row'); try assumption; [lia|]. apply (Permutation_trans Pr), (Permutation_trans (perm_skip a (perm_skip b P))), Permutation_sym, Pr'.
Qed.
(** sides of products *)
Lemma side_pset d k B y : pset d k B -> In y B -> pset (d - 1) k (rm y B).
Proof.
  intros (I & N & L & a & b & d' & e & row & Rk & X & Hd' & R & Inc) Iy. split; [exact I|]. split; [apply rm_nodup, N|]. split; [rewrite (rm_len y B N Iy); lia|]. exists a, b, d', e, row. split; [exact Rk|]. split; [rewrite !rm_in; tauto|]. split; [exact Hd'|]. split; [exact R|]. intros x [<-|[<-|Hx]]; apply Inc; [left; reflexivity|right; left; reflexivity|]. right; right. apply rm_in in Hx. tauto.
Qed.
Lemma base_kept d k B : 1 <= d <= D -> pset d k B -> exists s srow, ent_verts T (d - 1) s srow /\ Permutation srow B /\ forall k', In k' keys -> ~ has_edge T (d - 1) s k'.
Proof.
  intros Hd (I & N & L & a & b & d' & e & row & Rk & X & Hd' & R & Inc). pose proof (v_dim T HT) as HD. destruct (part T HT HS d' e row B ltac:(lia) R N) as (s & srow & Rs & P); [intros x Hx; apply Inc; right; right; exact Hx|intros ->; unfold zlen in L; cbn in L; lia|].
  rewrite L in Rs. exists s, srow. split; [exact Rs|]. split; [exact P|]. intros k' I' (row1 & a1 & b1 & R1 & Rk1 & Ia & Ib). assert (row1 = srow) as -> by (apply (ent_unique T (d - 1) s); [lia|assumption|assumption]).
  assert (k' = k) as ->. { apply (one_key T HT HS keys HK d' e k' k); try assumption; [exists row, a1, b1|exists row, a, b]; (split; [exact R|]); (split; [assumption|]).
    - split; apply Inc; right; right; apply (Permutation_in _ P); assumption.
    - split; apply Inc; [left; reflexivity|right; left; reflexivity]. }
  pose proof (ent_unique T 1 k _ _ ltac:(lia) Rk Rk1) as E. injection E as <- <-. apply X. split; apply (Permutation_in _ P); assumption.
Qed.
(** everything new is part of something of one dimension more *)
Lemma pset_up d k B : 1 <= d < D -> pset d k B -> exists B', pset (d + 1) k B' /\ incl B B'.
Proof.
  intros Hd (I & N & L & a & b & d' & e & row & Rk & X & Hd' & R & Inc). pose proof (v_dim T HT) as HD. destruct (edge_row T HT HS k _ Rk) as (? & ? & E & Hab). injection E as <- <-.
  destruct (within T HS d' e row D Hd' R ltac:(lia)) as (e' & row' & R' & Inc'). destruct (ent_facts T HT HS D e' row' ltac:(lia) R') as (N' & L' & _). assert (incl (a :: b :: B) row') as J by (intros x Hx; apply Inc', Inc, Hx).
  assert (forall z, In z row' -> ~ In z B -> ~ (In a (z :: B) /\ In b (z :: B)) -> exists B', pset (d + 1) k B' /\ incl B B') as K.
  { intros z Iz Nz Xz. exists (z :: B). split; [|intros x Hx; right; exact Hx]. split; [exact I|]. split; [constructor; assumption|]. split; [rewrite zlen_cons_; lia|]. exists a, b, D, e', row'. split; [exact Rk|]. split; [exact Xz|]. split; [lia|]. split; [exact R'|]. intros x [<-|[<-|[<-|Hx]]]; try (apply J; cbn; tauto). exact Iz. }
  destruct (in_dec Z.eq_dec a B) as [Ia|Ia]; [|destruct (in_dec Z.eq_dec b B) as [Ib|Ib]].
  - destruct (missing row' (b :: B) N') as (z & Iz & Nz); [rewrite zlen_cons_; lia|]. apply (K z Iz); [intros Q; apply Nz; right; exact Q|]. intros [_ [->|Q]]; [apply Nz; left; reflexivity|tauto].
  - destruct (missing row' (a :: B) N') as (z & Iz & Nz); [rewrite zlen_cons_; lia|]. apply (K z Iz); [intros Q; apply Nz; right; exact Q|]. intros [[->|Q] _]; [apply Nz; left; reflexivity|tauto].
  - apply (K a); [apply J; left; reflexivity|exact Ia|]. intros [_ [?|?]]; [congruence|contradiction].
Qed.
Lemma keyed d e : 0 <= d <= D -> 0 <= e < t_nents T d -> (exists k, In k keys /\ has_edge T d e k) \/ (forall k, In k keys -> ~ has_edge T d e k).
Proof.
  intros Hd He. pose proof (v_dim T HT) as HD. destruct (ent_row T HT HS d e Hd He) as (row & R).
  assert (forall l, incl l keys -> (exists k, In k l /\ has_edge T d e k) \/ (forall k, In k l -> ~ has_edge T d e k)) as K; [|apply K, incl_refl].
  intros l. induction l as [|k l IH]; intros Il; [right; intros k []|]. destruct IH as [(k' & I & H)|IH]; [intros x Hx; apply Il; right; exact Hx|left; exists k'; split; [right; exact I|exact H]|].
  destruct (key_row k (Il k (or_introl eq_refl))) as (a & b & Rk & _).
  assert (has_edge T d e k <-> In a row /\ In b row) as Q. { split; [|intros [Ia Ib]; exists row, a, b; auto]. intros (row1 & a1 & b1 & R1 & Rk1 & Ia & Ib). assert (row1 = row) as -> by (apply (ent_unique T d e); [lia|assumption|assumption]). pose proof (ent_unique T 1 k _ _ ltac:(lia) Rk Rk1) as E. injection E as <- <-. auto. }
  destruct (in_dec Z.eq_dec a row) as [Ia|Ia]; [destruct (in_dec Z.eq_dec b row) as [Ib|Ib]|]; [left; exists k; split; [left; reflexivity|apply Q; auto]|right|right]; (intros k' [<-|I']; [rewrite Q; tauto|apply IH, I']).
Qed.
Lemma kept_up d e row : 1 <= d < D -> ent_verts T d e row -> (forall k, In k keys -> ~ has_edge T d e k) ->
  (exists e' row', ent_verts T (d + 1) e' row' /\ incl row row' /\ forall k, In k keys -> ~ has_edge T (d + 1) e' k) \/ (exists k, pset (d + 1) k row).
Proof.
  intros Hd R NK. pose proof (v_dim T HT) as HD. destruct (s_pure T HS d e row ltac:(lia) R) as (e' & row' & R' & Inc). destruct (ent_facts T HT HS d e row ltac:(lia) R) as (N & L & _).
  destruct (keyed (d + 1) e' ltac:(lia) (ent_range T HT HS (d + 1) e' row' ltac:(lia) R')) as [(k & I & H)|H]; [right|left; eauto 8]. exists k. split; [exact I|]. split; [exact N|]. split; [exact L|].
  pose proof H as (row1 & a & b & R1 & Rk & Ia & Ib). assert (row1 = row') as -> by (apply (ent_unique T (d + 1) e'); [lia|assumption|assumption]). exists a, b, (d + 1), e', row'. split; [exact Rk|]. split; [intros [Qa Qb]; apply (NK k I); exists row, a, b; auto|]. split; [lia|]. split; [exact R'|].
  intros x [<-|[<-|Hx]]; [exact Ia|exact Ib|apply Inc, Hx].
Qed.
End shapes.
