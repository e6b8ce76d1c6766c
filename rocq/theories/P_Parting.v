(** Migration gives the same mesh, distributed in another way. *)
From Verif Require Import Prelude M_Array M_Par M_Scan M_Sort M_Map M_Tags M_Template M_Dist M_Owners M_Migrate M_Ghost M_Parting S_Map S_Dist S_Owners S_Migrate S_Ghost S_Parting.
From Verif Require Import P_Array P_Map P_Map2 P_Fan P_Dist P_Dist2 P_Dist3 P_Dist5 P_Owners P_Link P_Migrate2 P_Migrate4 P_Migrate5 P_Migrate6 P_Ghost2 P_Ghost3 P_Ghost4 P_Ghost5.
Local Open Scope Z_scope.

Lemma deg_pos nranks m d high : sound nranks m -> 0 <= d -> zget (dm_ents m) (d + 1) = Ok high -> 0 < element_degree (dm_family m) (d + 1) d.
Proof. intros Sm Hd H. apply degree_pos. pose proof (s_dim _ _ Sm). pose proof (s_levels _ _ Sm). pose proof (zget_bounds _ _ _ H). lia. Qed.

(** ** composition *)
Definition chain (R S : Z -> Z -> Z -> Z -> Z -> Prop) (d s x s'' x'' : Z) : Prop := exists s' x', R d s x s' x' /\ S d s' x' s'' x''.
Lemma side_present nranks m d s x k : sound nranks m -> 0 <= d -> present m (d + 1) s x -> 0 <= k < element_degree (dm_family m) (d + 1) d -> exists l, side m d s x k l.
Proof.
  intros Sm Hd (e & n & He & Hn & Hx) Hk. pose proof (zget_bounds _ _ _ He) as B. destruct (zget_in_range (dm_ents m) d ltac:(lia)) as (low & Hl). destruct (d_size _ _ _ (s_sides _ _ Sm _ _ _ He Hl)) as [L G]. destruct (zget_in_range (de_down e) s) as (a & Ha); [rewrite L; eapply zget_bounds; eauto|].
  destruct (zget_in_range a (x * element_degree (dm_family m) (d + 1) d + k)) as (l & Hla); [rewrite (G s n a Hn Ha); nia|]. exists l. split; [exact Hd|]. exists e. split; [exact He|]. split; [exact Hk|]. exists a. auto.
Qed.
Lemma same_tags_chain nranks e1 e2 e3 s1 x1 s2 x2 s3 x3 n2 : sound_level nranks e2 -> zget (de_nents e2) s2 = Ok n2 -> same_tags e1 e2 s1 x1 s2 x2 -> same_tags e2 e3 s2 x2 s3 x3 -> same_tags e1 e3 s1 x1 s3 x3.
Proof.
  intros S2 Hn2. unfold same_tags. pose proof (l_tags _ _ S2) as T. revert T. generalize (de_tags e1) (de_tags e2) (de_tags e3). intros l1 l2. revert l1. induction l2 as [|t2 l2 IH]; intros l1 l3 T F G.
  - inversion F; subst. inversion G; subst. constructor.
  - inversion F as [|t1 ? l1' ? (A1 & A2 & A3 & A4) F']; subst. inversion G as [|? t3 ? l3' (B1 & B2 & B3 & B4) G']; subst. inversion T as [|? ? (_ & _ & T2) T']; subst.
    constructor; [|apply IH; auto]. split; [congruence|]. split; [congruence|]. split; [congruence|]. intros a c Ha Hc. destruct (zget_in_range (dt_data t2) s2) as (b & Hb); [rewrite (proj1 T2); eapply zget_bounds; eauto|].
    intros k Hk. destruct (A4 a b Ha Hb k Hk) as (v & V1 & V2). destruct (B4 b c Hb Hc k ltac:(lia)) as (w & W1 & W2). rewrite A3 in W1, W2. exists v. split; [|exact V2]. rewrite W1. congruence.
Qed.
Lemma same_mesh_chain nranks m1 m2 m3 R S : sound nranks m2 -> same_mesh m1 m2 R -> same_mesh m2 m3 S -> same_mesh m1 m3 (chain R S).
Proof.
  intros S2 H1 H2. constructor.
  - rewrite (i_family _ _ _ H2). apply (i_family _ _ _ H1).
  - rewrite (i_dim _ _ _ H2). apply (i_dim _ _ _ H1).
  - intros d s x s' x' (u & y & A & B). split; [apply (i_in _ _ _ H1 _ _ _ _ _ A)|apply (i_in _ _ _ H2 _ _ _ _ _ B)].
  - intros d s x P. destruct (i_left _ _ _ H1 _ _ _ P) as (u & y & A). destruct (i_left _ _ _ H2 d u y (proj2 (i_in _ _ _ H1 _ _ _ _ _ A))) as (s' & x' & B). exists s', x', u, y. auto.
  - intros d s x P. destruct (i_right _ _ _ H2 _ _ _ P) as (u & y & A). destruct (i_right _ _ _ H1 d u y (proj1 (i_in _ _ _ H2 _ _ _ _ _ A))) as (s' & x' & B). exists s', x', u, y. auto.
  - intros d s x s' x' e e' (u & y & A & B) He He'. destruct (i_in _ _ _ H1 _ _ _ _ _ A) as [_ (e2 & n2 & He2 & Hn2 & _)]. eapply (same_tags_chain nranks e e2 e' s x u y); [exact (s_level _ _ S2 _ _ He2)|exact Hn2|eapply (i_tags _ _ _ H1); eauto|eapply (i_tags _ _ _ H2); eauto].
  - intros d s x s' x' k l l' (u & y & A & B) L1 L3. pose proof (proj2 (i_in _ _ _ H1 _ _ _ _ _ A)) as P.
    pose proof (proj1 L1) as Hd.
    destruct (side_present nranks m2 d u y k S2 Hd P) as (l2 & L2). { rewrite (i_family _ _ _ H1). destruct L1 as (_ & e1 & _ & Hk & _). exact Hk. }
    exists u, l2. split; [eapply (i_sides _ _ _ H1); eauto|eapply (i_sides _ _ _ H2); eauto].
  - intros d s x s' x' t y t' y' (u & z & A & B) (u' & z' & A' & B'). rewrite (i_copies _ _ _ H1 _ _ _ _ _ _ _ _ _ A A'). apply (i_copies _ _ _ H2 _ _ _ _ _ _ _ _ _ B B').
Qed.

(** nothing changed *)
Definition itself (m : dmesh) (d s x s' x' : Z) : Prop := present m d s x /\ s' = s /\ x' = x.
Lemma same_mesh_refl nranks m : sound nranks m -> same_mesh m m (itself m).
Proof.
  intros Sm. constructor; auto.
  - intros d s x s' x' (P & -> & ->). auto.
  - intros d s x P. exists s, x. split; auto.
  - intros d s x P. exists s, x. split; auto.
  - intros d s x s' x' e e' ((e0 & n & He0 & Hn & Bx) & -> & ->) He He'. assert (e' = e) as -> by congruence. assert (e0 = e) as -> by congruence. unfold same_tags. pose proof (l_tags _ _ (s_level _ _ Sm _ _ He)) as T. induction T as [|t l (_ & _ & T1 & T2) T IH]; constructor; [|exact IH].
    repeat (split; [reflexivity|]). intros a b Ha Hb k Hk. assert (b = a) as -> by congruence. destruct (zget_in_range a (x * dt_ncomps t + k)) as (v & Hv); [rewrite (T2 s n a Hn Ha); nia|]. eauto.
  - intros d s x s' x' k l l' (P & -> & ->) (Hd & e & He & Hk & Hg) (_ & e' & He' & _ & Hg'). assert (e' = e) as -> by congruence. pose proof (goes_to_fun _ _ _ _ _ Hg Hg') as <-. split; [|auto].
    pose proof (zget_bounds _ _ _ He) as B.
    destruct (zget_in_range (dm_ents m) d ltac:(lia)) as (low & Hl). destruct (d_range _ _ _ (s_sides _ _ Sm _ _ _ He Hl) s _ l Hg) as (n & Hn & Bl). exists low, n. auto.
  - intros d s x s' x' t y t' y' (_ & -> & ->) (_ & -> & ->). reflexivity.
Qed.

(** ** migration *)
Definition moved_to (m : dmesh) (srcs : list (list (list (Z * Z)))) (d s x s' x' : Z) : Prop :=
  exists e sr r q, zget (dm_ents m) d = Ok e /\ zget srcs d = Ok sr /\ owner_is (de_ranks e) (de_idxs e) s x r q /\ copy_of sr s' x' r q.
Section iso.
Context (nranks : Z) (mode : parting) (m m' : dmesh) (srcs : list (list (list (Z * Z)))) (elems : dents) (src : list (list (Z * Z))).
Hypothesis Sm : sound nranks m.
Hypothesis Am : agrees m.
Hypothesis Cm : covered m.
Hypothesis Mv : migrated mode m m' srcs.
Hypothesis Pr : owners_present mode m srcs.
Hypothesis He : elems_of m = Ok elems.
Hypothesis Hs : zget srcs (dm_dim m) = Ok src.
Hypothesis Ls : zlen src = nranks.
Hypothesis Own : forall s c t j, copy_of src s c t j -> is_owner elems t j.
Hypothesis Every : forall t j, is_owner elems t j -> exists s c, copy_of src s c t j.

Lemma iso_sources d e sr s c t j : zget (dm_ents m) d = Ok e -> zget srcs d = Ok sr -> copy_of sr s c t j -> owner_is (de_ranks e) (de_idxs e) t j t j.
Proof using Sm Am Mv He Hs Own. intros H1 H2 H3. eapply (sources_own nranks mode m m' srcs Sm Mv Am elems src He Hs Own); eauto. Qed.
Lemma iso_exist d e sr : zget (dm_ents m) d = Ok e -> zget srcs d = Ok sr -> sources_exist e sr.
Proof using Sm Am Mv He Hs Own. intros H1 H2 s c r q Hc. eapply owner_range; [exact (s_level _ _ Sm _ _ H1)|eapply iso_sources; eauto]. Qed.
Lemma iso_present d e sr : zget (dm_ents m) d = Ok e -> zget srcs d = Ok sr -> keeps_owners mode d = true -> forall s c r q o, copy_of sr s c r q -> goes_to (de_ranks e) r q o -> exists y, copy_of sr o y r q.
Proof using Pr. intros H1 H2 Hk s c r q o Hc Hg. eapply Pr; eauto. Qed.
Lemma iso_kept : forall n d e sr s x t j, Z.of_nat n = dm_dim m - d -> zget (dm_ents m) d = Ok e -> zget srcs d = Ok sr -> owner_is (de_ranks e) (de_idxs e) s x t j -> exists s' c, copy_of sr s' c t j.
Proof using Sm Am Cm Mv He Hs Own Every.
  destruct Mv as [Gf Gd Gs Gl Glev Gsid]. pose proof (s_levels _ _ Sm) as Lv. induction n as [|n IH]; intros d e sr s x t j En Hed Hsr O.
  - assert (d = dm_dim m) as -> by lia. unfold elems_of in He. assert (e = elems) as -> by congruence. assert (sr = src) as -> by congruence. apply Every. exists s, x. exact O.
  - pose proof (zget_bounds _ _ _ Hsr) as B. destruct (zget_in_range (dm_ents m) (d + 1) ltac:(lia)) as (high & Hh). destruct (zget_in_range (dm_ents m') (d + 1) ltac:(lia)) as (high' & Hh'). destruct (zget_in_range srcs (d + 1) ltac:(lia)) as (hsrc & Hhs).
    destruct (Gsid d high e high' hsrc sr Hh Hed Hh' Hhs Hsr) as [[L0 Lo] _]. destruct (owner_range nranks e s x t j (s_level _ _ Sm _ _ Hed) O) as (ne & Hne & Bx). destruct (Cm d high e s ne x ltac:(lia) Hh Hed Hne Bx) as (y & k & Hk & Hg).
    pose proof Hg as (a & Ha & Hak). destruct (d_size _ _ _ (s_sides _ _ Sm _ _ _ Hh Hed)) as [L1 G1]. destruct (zget_in_range (de_nents high) s) as (nh & Hnh); [rewrite <- L1; eapply zget_bounds; eauto|]. pose proof (zget_bounds _ _ _ Hak) as By. rewrite (G1 s nh a Hnh Ha) in By.
    destruct (owner_exists nranks high s nh y (s_level _ _ Sm _ _ Hh) Hnh ltac:(nia)) as (t' & j' & O'). destruct (IH (d + 1) high hsrc s y t' j' ltac:(lia) Hh Hhs O') as (s' & c & Hc).
    assert (side_owner (element_degree (dm_family m) (d + 1) d) high e t' j' k t j) as So. { apply (proj2 Am _ _ _ Hh Hed s y t' j' k t j O'). split; [exact Hk|]. exists x. auto. }
    pose proof Hc as (w0 & Hw0 & _). destruct (zget_in_range sr s') as (w & Hw); [rewrite L0; eapply zget_bounds; eauto|]. destruct (Lo s' w Hw) as (_ & Il & _). pose proof (proj2 (Il t j) ltac:(eauto 6)) as I. apply In_zget in I as (c' & Hc'). exists s', c', w. auto.
Qed.
Lemma level_at d e' : zget (dm_ents m') d = Ok e' -> exists e sr, zget (dm_ents m) d = Ok e /\ zget srcs d = Ok sr /\ level_moved mode d e e' sr.
Proof using Sm Mv src Ls.
  clear Own Every Pr Hs Ls. intros H. destruct Mv as [Gf Gd Gs Gl Glev Gsid]. pose proof (s_levels _ _ Sm) as Lv. pose proof (zget_bounds _ _ _ H) as B. destruct (zget_in_range (dm_ents m) d ltac:(lia)) as (e & He0). destruct (zget_in_range srcs d ltac:(lia)) as (sr & Hsr). eauto 6.
Qed.
Lemma level_for d e : zget (dm_ents m) d = Ok e -> exists e' sr, zget (dm_ents m') d = Ok e' /\ zget srcs d = Ok sr /\ level_moved mode d e e' sr.
Proof using Sm Mv src Ls.
  clear Own Every Pr Hs Ls. intros H. destruct Mv as [Gf Gd Gs Gl Glev Gsid]. pose proof (s_levels _ _ Sm) as Lv. pose proof (zget_bounds _ _ _ H) as B. destruct (zget_in_range (dm_ents m') d ltac:(lia)) as (e' & He0). destruct (zget_in_range srcs d ltac:(lia)) as (sr & Hsr). eauto 6.
Qed.

Lemma migrated_same : same_mesh m m' (moved_to m srcs).
Proof using Sm Am Cm Mv Pr He Hs Ls Own Every.
  pose proof Mv as [Gf Gd Gs Gl Glev Gsid]. pose proof (s_levels _ _ Sm) as Lv. constructor; auto.
  - intros d s x s' x' (e & sr & r & q & H1 & H2 & H3 & H4). destruct (level_for d e H1) as (e' & sr' & He' & Hsr' & Lm). assert (sr' = sr) as -> by congruence. split.
    + destruct (owner_range nranks e s x r q (s_level _ _ Sm _ _ H1) H3) as (n & Hn & B). exists e, n. auto.
    + destruct (copy_nents mode d e e' sr Lm s' x' r q H4) as (n & Hn & B). exists e', n. auto.
  - intros d s x (e & n & H1 & Hn & B). destruct (level_for d e H1) as (e' & sr & He' & Hsr & Lm). destruct (owner_exists nranks e s n x (s_level _ _ Sm _ _ H1) Hn B) as (t & j & O). pose proof (zget_bounds _ _ _ H1).
    destruct (iso_kept (Z.to_nat (dm_dim m - d)) d e sr s x t j ltac:(lia) H1 Hsr O) as (s' & c & Hc). exists s', c, e, sr, t, j. auto.
  - intros d s' x' (e' & n & H1 & Hn & B). destruct (level_at d e' H1) as (e & sr & H2 & Hsr & Lm). apply (new_nents mode d e e' sr Lm) in Hn as (l & Hl & ->). destruct (zget_in_range l x' B) as ([t j] & Hc). assert (copy_of sr s' x' t j) as C by (exists l; auto).
    exists t, j, e, sr, t, j. repeat (split; [assumption|]). split; [|exact C]. eapply iso_sources; eauto.
  - intros d s x s' x' e e' (e0 & sr & r & q & H1 & H2 & H3 & H4) H5 H6. assert (e0 = e) as -> by congruence. pose proof (Glev d e e' sr H1 H6 H2) as Lm. pose proof (v_tags _ _ _ _ _ Lm) as F. unfold same_tags. destruct (proj1 Am _ _ H1 s x r q H3) as [_ Tg].
    pose proof (l_tags _ _ (s_level _ _ Sm _ _ H1)) as T. assert (exists n, zget (de_nents e) r = Ok n) as (n & Hn). { destruct (iso_exist d e sr H1 H2 s' x' r q H4) as (n & Hn & _). eauto. }
    clear - F Tg T H4 Hn. destruct H4 as (w & Hw & Hc). set (Q := fun t t' : dtag => _). assert (forall l l', Forall2 (tag_moved sr) l l' -> (forall g, In g l -> In g (de_tags e)) -> Forall (sound_tag (de_nents e)) l -> Forall2 Q l l') as X; [|apply X; auto]. clear F T. intros l l' F. induction F as [|t t' l l' (M1 & M2 & M3 & M4 & M5) F IH]; intros I T; constructor.
    + unfold Q. repeat (split; [assumption|]). intros a b Ha Hb k Hk. inversion T as [|? ? (_ & _ & T1) _]; subst. destruct (zget_in_range (dt_data t) r) as (y & Hy); [rewrite (proj1 T1); eapply zget_bounds; eauto|].
      destruct (Tg t a y (I t (or_introl eq_refl)) Ha Hy k Hk) as (v & V1 & V2). destruct (proj2 (M5 s' w b Hw Hb) x' r q y Hc Hy k Hk) as (v' & W1 & W2). exists v. split; [congruence|exact V1].
    + apply IH; [intros g Ig; apply I; right; exact Ig|inversion T; assumption].
  - intros d s x s' x' k l l' (e & sr & r & q & H1 & H2 & H3 & H4) (Hd & e1 & K1 & Hk & Hg) (_ & e2 & K2 & _ & Hg'). assert (e1 = e) as -> by congruence. pose proof (zget_bounds _ _ _ H1) as B.
   
    destruct (zget_in_range (dm_ents m) d ltac:(lia)) as (low & Hl). destruct (zget_in_range srcs d ltac:(lia)) as (lsrc & Hls). destruct (d_range _ _ _ (s_sides _ _ Sm _ _ _ H1 Hl) s _ l Hg) as (n & Hn & Bl). destruct (owner_exists nranks low s n l (s_level _ _ Sm _ _ Hl) Hn Bl) as (t & j & O).
    assert (side_owner (element_degree (dm_family m) (d + 1) d) e low r q k t j) as So. { apply (proj2 Am _ _ _ H1 Hl s x r q k t j H3). split; [exact Hk|]. exists l. auto. }
    destruct (Gsid d e low e2 sr lsrc H1 Hl K2 H2 Hls) as [_ (_ & M2 & _)]. destruct (M2 s' x' r q k t j H4 So) as (x'' & G & C). rewrite Gf in Hg'. pose proof (goes_to_fun _ _ _ _ _ G Hg') as ->. exists low, lsrc, t, j. auto.
  - intros d s x s' x' t y t' y' (e & sr & r & q & H1 & H2 & H3 & H4) (e1 & sr1 & r1 & q1 & K1 & K2 & K3 & K4). assert (e1 = e) as -> by congruence. assert (sr1 = sr) as -> by congruence. destruct (level_for d e H1) as (e' & sr' & He' & Hsr' & Lm). assert (sr' = sr) as -> by congruence.
    pose proof (owner_of_copies nranks mode d e e' sr (s_level _ _ Sm _ _ H1) Lm (iso_exist d e sr H1 H2) (iso_present d e sr H1 H2)) as Oc. pose proof (owner_copy nranks mode d e e' sr (s_level _ _ Sm _ _ H1) Lm (iso_exist d e sr H1 H2) (iso_present d e sr H1 H2)) as Oy. split.
    + intros (e0 & o & z & H5 & O1 & O2). assert (e0 = e) as -> by congruence. destruct (owner_fun _ _ _ _ _ _ _ _ H3 O1) as [-> ->]. destruct (owner_fun _ _ _ _ _ _ _ _ K3 O2) as [E1 E2]. subst. destruct (Oc _ _ _ _ H4) as (t0 & x0 & _ & F). exists e', t0, x0. split; [exact He'|]. split; apply F; assumption.
    + intros (e0 & o & z & H5 & O1 & O2). assert (e0 = e') as -> by congruence. destruct (Oy _ _ _ _ O1) as (a1 & b1 & C1 & C2 & _). destruct (Oy _ _ _ _ O2) as (a2 & b2 & C3 & C4 & _).
      destruct (copy_fun _ _ _ _ _ _ _ C2 C4) as [-> ->]. destruct (copy_fun _ _ _ _ _ _ _ C1 H4) as [-> ->]. destruct (copy_fun _ _ _ _ _ _ _ C3 K4) as [-> ->]. exists e, r1, q1. auto.
Qed.
End iso.
