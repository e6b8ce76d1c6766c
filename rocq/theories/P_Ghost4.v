(** Proofs about layers of ghost elements. *)
From Verif Require Import Prelude M_Array M_Par M_Scan M_Sort M_Map M_Tags M_Template M_Dist M_Owners M_Migrate M_Ghost S_Map S_Dist S_Owners S_Migrate S_Ghost.
From Verif Require Import P_Array P_Map P_Fan P_Dist P_Dist2 P_Dist3 P_Dist5 P_Owners P_Link P_Migrate2 P_Migrate4 P_Migrate5 P_Ghost2 P_Ghost3.
Local Open Scope Z_scope.

(** an entity has an owner *)
Lemma owner_exists nranks e s n x : sound_level nranks e -> zget (de_nents e) s = Ok n -> 0 <= x < n -> exists t j, owner_is (de_ranks e) (de_idxs e) s x t j.
Proof.
  intros Se Hn B. destruct (l_size _ _ Se) as [L1 G1]. destruct (level_idxs _ _ Se) as [L2 G2]. destruct (zget_in_range (de_ranks e) s) as (a & Ha); [rewrite L1; eapply zget_bounds; eauto|]. destruct (zget_in_range (de_idxs e) s) as (b & Hb); [rewrite L2; eapply zget_bounds; eauto|].
  destruct (zget_in_range a x) as (t & Ht); [rewrite (G1 s n a Hn Ha); lia|]. destruct (zget_in_range b x) as (j & Hj); [rewrite (G2 s n b Hn Hb); lia|]. exists t, j. split; [exists a|exists b]; auto.
Qed.
Lemma owner_range nranks e s x t j : sound_level nranks e -> owner_is (de_ranks e) (de_idxs e) s x t j -> exists n, zget (de_nents e) s = Ok n /\ 0 <= x < n.
Proof.
  intros Se [(a & Ha & Hx) _]. destruct (l_size _ _ Se) as [L1 G1]. destruct (zget_in_range (de_nents e) s) as (n & Hn); [rewrite <- L1; eapply zget_bounds; eauto|]. exists n. split; [exact Hn|]. pose proof (zget_bounds _ _ _ Hx) as B. rewrite (G1 s n a Hn Ha) in B. lia.
Qed.
Lemma owner_fun (R I : list (list Z)) s x t j t' j' : owner_is R I s x t j -> owner_is R I s x t' j' -> t' = t /\ j' = j.
Proof. intros [H1 H2] [H3 H4]. split; eapply goes_to_fun; eauto. Qed.

Section mesh.
Context (nranks : Z) (m : dmesh).
Hypothesis Sm : sound nranks m.

Lemma bounds_range d s x v : (Z.of_nat d <= dm_dim m) -> (exists e n, zget (dm_ents m) (Z.of_nat d) = Ok e /\ zget (de_nents e) s = Ok n /\ 0 <= x < n) -> bounds m d s x v ->
  exists verts n, verts_of m = Ok verts /\ zget (de_nents verts) s = Ok n /\ 0 <= v < n.
Proof using Sm.
  revert x. induction d as [|d IH]; intros x Hd Hx Hb.
  - cbn in Hb. subst v. exact Hx.
  - destruct Hb as (e & k & l & He & Hk & Hg & Hb). apply (IH l); [lia| |exact Hb]. replace (Z.of_nat (S d)) with (Z.of_nat d + 1) in * by lia.
    destruct (zget_in_range (dm_ents m) (Z.of_nat d)) as (low & Hlow); [pose proof (zget_bounds _ _ _ He); lia|]. destruct (d_range _ _ _ (s_sides _ _ Sm _ _ _ He Hlow) s _ l Hg) as (n & Hn & B). eauto.
Qed.

Hypothesis Am : agrees m.
Lemma bounds_agree d e s i t j o x : (Z.of_nat d <= dm_dim m) -> zget (dm_ents m) (Z.of_nat d) = Ok e -> owner_is (de_ranks e) (de_idxs e) s i o x -> owner_is (de_ranks e) (de_idxs e) t j o x ->
  forall verts v r q, verts_of m = Ok verts -> bounds m d s i v -> owner_is (de_ranks verts) (de_idxs verts) s v r q -> exists v', bounds m d t j v' /\ owner_is (de_ranks verts) (de_idxs verts) t v' r q.
Proof using Sm Am.
  revert e s i t j o x. induction d as [|d IH]; intros e s i t j o x Hd He O1 O2 verts v r q Hv Hb Ov.
  - cbn in Hb. subst v. unfold verts_of in Hv. change (Z.of_nat 0) with VERT in He. assert (verts = e) as -> by congruence. destruct (owner_fun _ _ _ _ _ _ _ _ O1 Ov) as [-> ->]. exists j. split; [reflexivity|exact O2].
  - destruct Hb as (e' & k & l & He' & Hk & Hg & Hb). assert (e' = e) as -> by congruence. cbn [bounds]. replace (Z.of_nat (S d)) with (Z.of_nat d + 1) in * by lia.
    destruct (zget_in_range (dm_ents m) (Z.of_nat d)) as (low & Hlow); [pose proof (zget_bounds _ _ _ He); lia|]. destruct (d_range _ _ _ (s_sides _ _ Sm _ _ _ He Hlow) s _ l Hg) as (n & Hn & B).
    destruct (owner_exists nranks low s n l (s_level _ _ Sm _ _ Hlow) Hn B) as (o' & x' & Ol). pose proof (proj2 Am _ _ _ He Hlow) as Ag.
    assert (side_owner (element_degree (dm_family m) (Z.of_nat d + 1) (Z.of_nat d)) e low s i k o' x') as So by (split; [exact Hk|exists l; auto]).
    apply (Ag s i o x k o' x' O1) in So. apply (Ag t j o x k o' x' O2) in So. destruct So as (_ & l' & Hg' & Ol').
    destruct (IH low s l t l' o' x' ltac:(lia) Hlow Ol Ol' verts v r q Hv Hb Ov) as (v' & Hb' & Ov'). exists v'. split; [|exact Ov']. exists e, k, l'. repeat (split; [assumption|]). exact Hb'.
Qed.
Lemma has_vertex_agree elems s i t j r q : elems_of m = Ok elems -> owner_is (de_ranks elems) (de_idxs elems) s i t j -> (has_vertex m s i r q <-> has_vertex m t j r q).
Proof using Sm Am.
  intros He O. unfold elems_of in He. pose proof (s_dim _ _ Sm) as D. destruct (proj1 Am _ _ He s i t j O) as [O' _]. rewrite <- (Z2Nat.id (dm_dim m)) in He by lia.
  split; intros (verts & v & Hv & Hb & Ov); [destruct (bounds_agree (Z.to_nat (dm_dim m)) elems s i t j t j ltac:(lia) He O O' verts v r q Hv Hb Ov) as (v' & B & O2)|destruct (bounds_agree (Z.to_nat (dm_dim m)) elems t j s i t j ltac:(lia) He O' O verts v r q Hv Hb Ov) as (v' & B & O2)]; exists verts, v'; auto.
Qed.
Lemma around_vertex elems r q t j : elems_of m = Ok elems -> (around m elems r q t j <-> is_owner elems t j /\ has_vertex m t j r q).
Proof using Sm Am.
  intros He. split.
  - intros (u & x & O & Hh). split; [exists u, x; exact O|]. apply (has_vertex_agree elems u x t j r q He O). exact Hh.
  - intros [(u & x & O) Hh]. exists u, x. split; [exact O|]. apply (has_vertex_agree elems u x t j r q He O). exact Hh.
Qed.

Hypothesis Cm : covered m.
Lemma covered_up d verts s n v : (Z.of_nat d <= dm_dim m) -> verts_of m = Ok verts -> zget (de_nents verts) s = Ok n -> 0 <= v < n ->
  exists e n' x, zget (dm_ents m) (Z.of_nat d) = Ok e /\ zget (de_nents e) s = Ok n' /\ 0 <= x < n' /\ bounds m d s x v.
Proof using Sm Cm.
  intros Hd Hv Hn B. induction d as [|d IH]; [exists verts, n, v; repeat (split; [assumption|]); reflexivity|].
  destruct IH as (low & n' & l & Hlow & Hn' & Bl & Hb); [lia|]. cbn [bounds]. replace (Z.of_nat (S d)) with (Z.of_nat d + 1) in * by lia. pose proof (s_levels _ _ Sm) as Ls. destruct (zget_in_range (dm_ents m) (Z.of_nat d + 1) ltac:(lia)) as (e & He).
  destruct (Cm (Z.of_nat d) e low s n' l ltac:(lia) He Hlow Hn' Bl) as (x & k & Hk & Hg). destruct (d_size _ _ _ (s_sides _ _ Sm _ _ _ He Hlow)) as [L1 G1]. pose proof Hg as (a & Ha & Hak).
  destruct (zget_in_range (de_nents e) s) as (ne & Hne); [rewrite <- L1; eapply zget_bounds; eauto|]. pose proof (zget_bounds _ _ _ Hak) as Bx. rewrite (G1 s ne a Hne Ha) in Bx.
  exists e, ne, x. split; [exact He|]. split; [exact Hne|]. split; [nia|]. exists e, k, l. auto.
Qed.

Lemma owner_of_vertex_on elems s r q : elems_of m = Ok elems ->
  ((exists verts v, verts_of m = Ok verts /\ owner_is (de_ranks verts) (de_idxs verts) s v r q) <-> exists t j, is_on elems s t j /\ has_vertex m t j r q).
Proof using Sm Am Cm.
  intros He. pose proof (s_dim _ _ Sm) as D. split.
  - intros (verts & v & Hv & Ov). destruct (owner_range nranks verts s v r q (s_level _ _ Sm _ _ Hv) Ov) as (n & Hn & B). destruct (covered_up (Z.to_nat (dm_dim m)) verts s n v ltac:(lia) Hv Hn B) as (e & n' & x & He' & Hn' & Bx & Hb). rewrite Z2Nat.id in He' by lia. unfold elems_of in He. assert (e = elems) as -> by congruence.
    destruct (owner_exists nranks elems s n' x (s_level _ _ Sm _ _ He) Hn' Bx) as (t & j & O). exists t, j. split; [exists x; exact O|]. apply (has_vertex_agree elems s x t j r q He O). exists verts, v. auto.
  - intros (t & j & (x & O) & Hh). apply (has_vertex_agree elems s x t j r q He O) in Hh. destruct Hh as (verts & v & Hv & _ & Ov). eauto.
Qed.
Lemma within_rank elems s n t j : within m elems s n t j -> exists a, zget (de_ranks elems) s = Ok a.
Proof. revert t j. induction n as [|n IH]; intros t j; cbn [within]; [intros (x & (a & Ha & _) & _); eauto|]. intros (t' & j' & H & _). eauto. Qed.
Lemma within_owner elems s n t j : within m elems s n t j -> is_owner elems t j.
Proof. destruct n as [|n]; cbn [within]; [intros H; exists s; exact H|]. intros (t' & j' & _ & H & _). exact H. Qed.
End mesh.

Lemma has_exactly_copy elems src P : has_exactly elems src P -> (forall s t j, P s t j -> 0 <= s < zlen (de_nents elems)) -> forall s t j, (exists c, copy_of src s c t j) <-> P s t j.
Proof.
  intros [L G] B s t j. split.
  - intros (c & l & Hl & Hc). apply (G s l Hl), (zget_In _ _ _ Hc).
  - intros H. destruct (zget_in_range src s) as (l & Hl); [rewrite L; eauto|]. apply (G s l Hl) in H. apply In_zget in H as (c & Hc). exists c, l. auto.
Qed.
Lemma has_exactly_iff elems src (P Q : Z -> Z -> Z -> Prop) : (forall s t j, P s t j <-> Q s t j) -> has_exactly elems src P -> has_exactly elems src Q.
Proof. intros E [L G]. split; [exact L|]. intros s l Hl. destruct (G s l Hl) as (H1 & H2 & H3). split; [exact H1|]. split; [|exact H3]. intros t j. rewrite <- E. apply H2. Qed.

Section layers.
Context (inv : Z -> list Z -> Z -> res (list Z * list Z)) (nranks : Z) (m : dmesh) (elems verts : dents) (a : asked).
Hypothesis Hinv : inverter inv.
Hypothesis Sm : sound nranks m.
Hypothesis Am : agrees m.
Hypothesis Cm : covered m.
Hypothesis Hv : verts_of m = Ok verts.
Hypothesis He : elems_of m = Ok elems.
Hypothesis Wa : answered m elems verts a.

Lemma vert_degree_pos : 0 < element_degree (dm_family m) (dm_dim m) 0.
Proof using Sm. pose proof (s_dim _ _ Sm) as D. assert (dm_dim m = 1 \/ dm_dim m = 2 \/ dm_dim m = 3) as [-> |[-> | ->]] by lia; destruct (dm_family m); reflexivity. Qed.

Lemma sound_verts : sound_sides (element_degree (dm_family m) (dm_dim m) 0) (with_verts elems (elems2verts a)) verts.
Proof using Sm Hv He Wa.
  pose proof (s_dim _ _ Sm) as D. constructor; cbn [with_verts de_nents de_down de_codes]; [exact (w_size _ _ _ _ Wa)| |exact I].
  intros s c l (x & Hx & Hc). destruct (w_size _ _ _ _ Wa) as [L G]. destruct (zget_in_range (de_nents elems) s) as (n & Hn); [rewrite <- L; eapply zget_bounds; eauto|]. pose proof (zget_bounds _ _ _ Hc) as B. rewrite (G s n x Hn Hx) in B.
  destruct (block_index _ c n vert_degree_pos B) as (i & k & -> & Bk & Bi).
  assert (bounds m (Z.to_nat (dm_dim m)) s i l) as Hb by (apply (w_verts _ _ _ _ Wa s n i l Hn Bi); exists k; split; [exact Bk|]; exists x; auto).
  destruct (bounds_range nranks m Sm (Z.to_nat (dm_dim m)) s i l) as (v' & n' & Hv' & R); [lia|rewrite Z2Nat.id by lia; exists elems, n; auto|exact Hb|]. assert (v' = verts) as -> by congruence. eauto.
Qed.
Lemma vertex_owner r q t j : (exists n, zget (de_nents elems) t = Ok n /\ 0 <= j < n) ->
  ((exists k, side_owner (element_degree (dm_family m) (dm_dim m) 0) (with_verts elems (elems2verts a)) verts t j k r q) <-> has_vertex m t j r q).
Proof using Hv Wa.
  intros (n & Hn & Bj). split.
  - intros (k & Hk & v & Hg & Ov). exists verts, v. split; [exact Hv|]. split; [|exact Ov]. apply (w_verts _ _ _ _ Wa t n j v Hn Bj). exists k. auto.
  - intros (verts' & v & Hv' & Hb & Ov). assert (verts' = verts) as -> by congruence. apply (w_verts _ _ _ _ Wa t n j v Hn Bj) in Hb as (k & Hk & Hg). exists k. split; [exact Hk|]. exists v. auto.
Qed.

(** ask_down(dim, VERT) gives the right owners of uses *)
Definition uses_of (ur ui : list (list Z)) : Prop :=
  data_per_root (de_nents elems) ur (element_degree (dm_family m) (dm_dim m) 0) /\ data_per_root (de_nents elems) ui (element_degree (dm_family m) (dm_dim m) 0) /\
  (forall s c t, goes_to ur s c t <-> exists l, goes_to (elems2verts a) s c l /\ goes_to (de_ranks verts) s l t) /\
  (forall s c t, goes_to ui s c t <-> exists l, goes_to (elems2verts a) s c l /\ goes_to (de_idxs verts) s l t).
Lemma with_verts_sound : sound_level nranks (with_verts elems (elems2verts a)).
Proof using Sm He. destruct (s_level _ _ Sm _ _ He) as [A1 A2 A3 A4 A5 A6 A7 A8]. constructor; assumption. Qed.
Lemma form_uses_ok : exists ur ui, form_down_use_owners (with_verts elems (elems2verts a)) verts = Ok (ur, ui) /\ uses_of ur ui.
Proof using Sm Hv He Wa.
  pose proof (s_level _ _ Sm _ _ Hv) as Sv. destruct (down_uses nranks _ _ _ with_verts_sound Sv sound_verts (de_ranks verts) (l_size _ _ Sv)) as (ur & E1 & D1 & G1). destruct (down_uses nranks _ _ _ with_verts_sound Sv sound_verts (de_idxs verts) (level_idxs _ _ Sv)) as (ui & E2 & D2 & G2).
  exists ur, ui. unfold form_down_use_owners. rewrite E1, E2. split; [reflexivity|]. split; [exact D1|]. split; [exact D2|]. split; [exact G1|exact G2].
Qed.

Lemma close_down_ok ur ui ed ce esrc : element_degree (dm_family m) (dm_dim m) 0 = dm_dim m + 1 -> uses_of ur ui -> link ed ce (map (map fst) esrc) (map (map snd) esrc) (de_nents elems) ->
  exists vd cv vsrc, close_down inv m (ur, ui) ed = Ok vd /\ link vd cv (map (map fst) vsrc) (map (map snd) vsrc) (de_nents verts) /\
  forall s r q, (exists c, copy_of vsrc s c r q) <-> exists c t j, copy_of esrc s c t j /\ has_vertex m t j r q.
Proof using Hinv Sm Hv He Wa.
  intros Edeg (Dur & Dui & Gur & Gui) K. pose proof (s_level _ _ Sm _ _ Hv) as Sv. pose proof (s_level _ _ Sm _ _ He) as Se. pose proof (l_nranks _ _ Sv) as Nv. pose proof (l_nranks _ _ Se) as Ne. pose proof (s_ranks _ _ Sm) as Br.
  unfold close_down. rewrite Hv. cbn [bind]. rewrite <- Edeg. pose proof vert_degree_pos as Hdeg. pose proof vertex_owner as VO. set (deg := element_degree (dm_family m) (dm_dim m) 0) in *. clearbody deg.
  destruct (link_delivers ed ce esrc _ K _ ur deg Hdeg Dur) as (nr & Enr & Dnr). destruct (link_delivers ed ce esrc _ K _ ui deg Hdeg Dui) as (ni & Eni & Dni).
  pose proof (sent_uses nranks deg elems ed ce esrc Hdeg Se K ur nr Dur Dnr) as Gnr. pose proof (sent_uses nranks deg elems ed ce esrc Hdeg Se K ui ni Dui Dni) as Gni. pose proof (hsrc_len nranks elems ed ce esrc Se K) as Lhs.
  assert (zlen nr = nranks) as Lnr by (destruct Dnr as [E _]; lia). assert (zlen ni = nranks) as Lni by (destruct Dni as [E _]; lia).
  assert (forall s x t j, owner_is nr ni s x t j <-> exists c k r q, x = c * deg + k /\ copy_of esrc s c r q /\ side_owner deg (with_verts elems (elems2verts a)) verts r q k t j) as Ow.
  { intros s x t j. split.
    - intros [H1 H2]. apply Gnr in H1 as (c & k & r & q & Ex & Bk & Hc & Hu). apply Gni in H2 as (c' & k' & r' & q' & Ex' & Bk' & Hc' & Hu').
      destruct (block_unique deg c k c' k' Bk Bk' ltac:(lia)) as [<- <-]. destruct (copy_fun _ _ _ _ _ _ _ Hc Hc') as [<- <-]. apply Gur in Hu as (l & Hl & Ht). apply Gui in Hu' as (l' & Hl' & Hj).
      pose proof (goes_to_fun _ _ _ _ _ Hl Hl') as <-. exists c, k, r, q. split; [exact Ex|]. split; [exact Hc|]. split; [exact Bk|]. exists l. split; [exact Hl|]. split; assumption.
    - intros (c & k & r & q & -> & Hc & Bk & l & Hl & Ht & Hj). split; [apply Gnr|apply Gni]; exists c, k, r, q; (split; [reflexivity|]); (split; [exact Bk|]); (split; [exact Hc|]); [apply Gur|apply Gui]; eauto. }
  destruct (l_owners _ _ Sv) as (A1 & A2 & A3 & A4 & A5).
  assert (ranks_exist nr) as Rnr.
  { intros s x t H. apply Gnr in H as (c & k & r & q & _ & _ & _ & Hu). apply Gur in Hu as (l & _ & Ht). rewrite Lnr. pose proof (l_exist _ _ Sv r l t Ht). lia. }
  assert (addressed nr ni (de_nents verts)) as Anr.
  { split; [lia|]. split; [lia|]. split.
    - intros s x y Hx Hy. destruct (zget_in_range esrc s) as (l & Hl); [rewrite Lhs, <- Lnr; eapply zget_bounds; eauto|]. destruct Dnr as [_ D1]. destruct Dni as [_ D2]. rewrite (proj1 (D1 s l x Hl Hx)), (proj1 (D2 s l y Hl Hy)). reflexivity.
    - split; [exact A4|]. intros s x t j H1 H2. destruct (proj1 (Ow s x t j) (conj H1 H2)) as (c & k & r & q & _ & _ & _ & l & _ & O1 & O2). exact (A5 r l t j O1 O2). }
  unfold exch_remotes. cbn [fst snd]. rewrite Enr. cbn [bind]. rewrite Eni. cbn [bind].
  destruct (make_dist_ok inv nr ni _ Hinv Rnr ltac:(lia) Anr) as (ds1 & ds & _ & Em & _). rewrite Em. cbn [bind]. pose proof (make_dist_link inv nr ni _ Hinv Rnr ltac:(lia) Anr ds Em) as Ku.
  destruct (level_globals _ _ Sv) as (gl & Eg & Dg & _). rewrite Eg. cbn [bind]. destruct (get_new_copies_ok ds _ nr ni _ Ku ltac:(lia) (dt_data gl) Dg) as (vd & cv & vsrc & E1 & K1 & Ls & Gs).
  exists vd, cv, vsrc. split; [exact E1|]. split; [exact K1|]. intros s r q.
  assert (forall c t j, copy_of esrc s c t j -> exists n, zget (de_nents elems) t = Ok n /\ 0 <= j < n) as Rg. { intros c t j Hc. exact (copy_range elems ed ce esrc K s c t j Hc). }
  split.
  - intros (c & l & Hl & Hc). apply zget_In in Hc. apply (Gs s l Hl) in Hc as (i & O). apply Ow in O as (c' & k & t & j & _ & Hc' & So). exists c', t, j. split; [exact Hc'|]. apply (VO r q t j (Rg _ _ _ Hc')). eauto.
  - intros (c & t & j & Hc & Hh). apply (VO r q t j (Rg _ _ _ Hc)) in Hh as (k & So). destruct (zget_in_range vsrc s) as (l & Hl); [destruct Hc as (l' & Hl' & _); rewrite Ls, Lnr, <- Lhs; eapply zget_bounds; eauto|].
    assert (In (r, q) l) as I. { apply (Gs s l Hl). exists (c * deg + k). apply Ow. eauto 8. } apply In_zget in I as (c' & Hc'). exists c', l. auto.
Qed.
End layers.
