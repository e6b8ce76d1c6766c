(** Collapsing edges: what happens to sets of vertices. *)
From Coq Require Import String Permutation Sorted.
From Verif Require Import Prelude M_Array P_Array M_Par M_Scan S_Sort M_Sort M_Map S_Map P_Map P_Map2 M_Template S_Template P_Template M_Align S_Align P_Align M_Graph S_Graph M_Unique S_Unique P_Unique M_Adj S_Adj P_Adj
  M_Match S_Match P_Match M_Tags M_MeshAdj S_MeshAdj P_MeshAdj P_MeshAdj2 P_MeshAdj3 M_Build S_Build P_Build P_Box S_Unmap P_Unmap
  M_Modify S_Modify M_RefineMesh S_RefineMesh S_Rebuild P_Rebuild P_RefineMesh1 P_RefineMesh4 S_Patch P_Patch S_Collapse.
Local Open Scope Z_scope.

Section collapse.
Context (T : topology) (HT : valid_topology T) (HS : simplicial T) (globals keys rails : list Z) (HC : collapsible T globals keys rails).
Local Notation D := (t_dim T).
Local Notation goes := (goes T globals keys rails).
Local Notation becomes := (becomes T globals keys rails).
Local Notation shrinks := (shrinks T globals keys rails).
Local Notation falls := (falls T globals keys rails).

Lemma cdim : 1 <= D <= 3. Proof. exact (v_dim T HT). Qed.
Lemma goes_edge v w : goes v w -> exists k, ent_verts T 1 k [v; w] \/ ent_verts T 1 k [w; v].
Proof.
  intros (_ & g & k & row & _ & _ & R & P). exists k. destruct (edge_row T HT HS k row R) as (a & b & -> & _). apply Permutation_length_2_inv in P as [E|E]; [injection E as <- <-|injection E as <- <-]; auto.
Qed.
Lemma goes_facts v w : goes v w -> v <> w /\ 0 <= v < t_nents T 0 /\ 0 <= w < t_nents T 0 /\ ~ In w keys.
Proof.
  pose proof cdim as HD. intros G. destruct (goes_edge v w G) as (k & [R|R]); destruct (ent_facts T HT HS 1 k _ ltac:(lia) R) as (N & _ & B); inversion N as [|? ? N1 _]; subst;
    (split; [intros ->; apply N1; left; reflexivity|]); (split; [apply B; cbn; auto|]); (split; [apply B; cbn; auto|]); intros I; destruct G as [Iv _].
  - exact (c_apart _ _ _ _ HC k v w R Iv I).
  - exact (c_apart _ _ _ _ HC k w v R I Iv).
Qed.
Lemma goes_fun v w w' : goes v w -> goes v w' -> w = w'.
Proof.
  intros G G'. destruct (goes_facts v w G) as (Nv & _). destruct G as (_ & g & k & row & E1 & E2 & R & P). destruct G' as (_ & g' & k' & row' & E1' & E2' & R' & P'). assert (g' = g) as -> by congruence. destruct (c_globals _ _ _ _ HC) as [_ NG]. pose proof (NoDup_zget _ _ _ _ NG E2 E2') as <-.
  pose proof (ent_unique T 1 k _ _ ltac:(lia) R R') as <-. pose proof (Permutation_trans (Permutation_sym P) P') as Q. apply Permutation_cons_inv in Q. apply Permutation_length_1 in Q. exact Q.
Qed.
Lemma one_goer d e row v v' : 0 <= d <= D -> ent_verts T d e row -> In v row -> In v' row -> In v keys -> In v' keys -> v = v'.
Proof.
  intros Hd R Iv Iv' Kv Kv'. destruct (Z.eq_dec v v') as [|N]; [assumption|exfalso].
  destruct (part T HT HS d e row [v; v'] Hd R) as (s & srow & Rs & Ps); [constructor; [intros [->|[]]; congruence|repeat constructor; intros []]|intros x [<-|[<-|[]]]; assumption|discriminate|].
  change (zlen [v; v'] - 1) with 1 in Rs. apply Permutation_sym, Permutation_length_2_inv in Ps as [->| ->]; [exact (c_apart _ _ _ _ HC s v v' Rs Kv Kv')|exact (c_apart _ _ _ _ HC s v' v Rs Kv' Kv)].
Qed.

Context (onto : Z -> Z) (ON : forall v, In v keys -> goes v (onto v)).
Definition img (v : Z) : Z := if in_dec Z.eq_dec v keys then onto v else v.
Lemma img_key v : In v keys -> img v = onto v. Proof. intros H. unfold img. destruct (in_dec Z.eq_dec v keys); [reflexivity|contradiction]. Qed.
Lemma img_not v : ~ In v keys -> img v = v. Proof. intros H. unfold img. destruct (in_dec Z.eq_dec v keys); [contradiction|reflexivity]. Qed.
Lemma goes_onto v w : goes v w <-> In v keys /\ w = onto v.
Proof. split; [intros G; pose proof (proj1 G) as I; split; [exact I|apply (goes_fun v w (onto v) G (ON v I))]|intros [I ->]; apply ON, I]. Qed.
Lemma becomes_img v w : becomes v w <-> w = img v.
Proof.
  unfold S_Collapse.becomes. rewrite goes_onto. unfold img. destruct (in_dec Z.eq_dec v keys); tauto.
Qed.
Lemma becomes_map row to : Forall2 becomes row to <-> to = map img row.
Proof.
  revert to. induction row as [|v row IH]; intros to; split; intros H.
  - inversion H. reflexivity.
  - subst. constructor.
  - inversion H as [|? w ? to' A B]; subst. cbn. f_equal; [apply becomes_img, A|apply IH, B].
  - subst. cbn. constructor; [apply becomes_img; reflexivity|apply IH; reflexivity].
Qed.
Lemma img_free v : 0 <= v < t_nents T 0 -> 0 <= img v < t_nents T 0 /\ ~ In (img v) keys.
Proof. intros H. unfold img. destruct (in_dec Z.eq_dec v keys) as [I|I]; [|auto]. destruct (goes_facts v _ (ON v I)) as (_ & _ & A & B). auto. Qed.
(** what does not shrink keeps its vertices apart *)
Lemma img_apart d e row a b : 0 <= d <= D -> ent_verts T d e row -> ~ shrinks row -> In a row -> In b row -> img a = img b -> a = b.
Proof.
  intros Hd R NS Ia Ib E. unfold img in E. destruct (in_dec Z.eq_dec a keys) as [Ka|Ka], (in_dec Z.eq_dec b keys) as [Kb|Kb].
  - exact (one_goer d e row a b Hd R Ia Ib Ka Kb).
  - exfalso. apply NS. exists a, b. subst b. auto.
  - exfalso. apply NS. exists b, a. subst a. auto.
  - exact E.
Qed.
Lemma nodup_map_on {A B} (f : A -> B) l : NoDup l -> (forall a b, In a l -> In b l -> f a = f b -> a = b) -> NoDup (map f l).
Proof.
  induction 1 as [|x l N _ IH]; intros H; [constructor|]. cbn. constructor; [|apply IH; intros; apply H; try right; assumption]. intros I. apply in_map_iff in I as (y & E & Iy). assert (y = x) as -> by (apply H; [right; assumption|left; reflexivity|exact E]). contradiction.
Qed.
Lemma shrinks_sub row row' : incl row row' -> shrinks row -> shrinks row'.
Proof. intros I (v & w & G & A & B). exists v, w. auto. Qed.
Lemma falls_not d row : ~ falls d row -> ~ shrinks row.
Proof. intros N (v & w & G & A & B). apply N. exists v, w. auto. Qed.
Lemma keyless_stays d row : (forall v, In v row -> ~ In v keys) -> ~ falls d row /\ map img row = row.
Proof.
  intros H. split; [intros (v & w & G & I & _); apply (H v I), G|]. induction row as [|v row IH]; [reflexivity|]. cbn. rewrite img_not by (apply H; left; reflexivity). f_equal. apply IH. intros x I. apply H. right. exact I.
Qed.
(** what falls without shrinking has a stand-in *)
Lemma stand_in d e row : 0 <= d <= D -> ent_verts T d e row -> ~ shrinks row -> falls d row ->
  exists s srow, ent_verts T d s srow /\ (forall v, In v srow -> ~ In v keys) /\ Permutation srow (map img row).
Proof.
  intros Hd R NS (v & w & G & Iv & [Iw|(HD & h & hrow & Rh & Inc & Iw)]); [exfalso; apply NS; exists v, w; auto|]. destruct (goes_facts v w G) as (Nvw & _ & _ & Kw). pose proof (proj1 G) as Kv. destruct (ent_facts T HT HS d e row Hd R) as (Nr & Lr & _).
  assert (~ In w row) as Nw by (intros I; apply NS; exists v, w; auto).
  assert (NoDup (w :: rm v row)) as NB by (constructor; [rewrite rm_in; tauto|apply rm_nodup, Nr]). assert (zlen (w :: rm v row) = d + 1) as LB. { pose proof (rm_len v row Nr Iv) as E. unfold zlen in *. cbn [length]. lia. }
  destruct (part T HT HS (d + 1) h hrow (w :: rm v row) ltac:(lia) Rh NB) as (s & srow & Rs & Ps); [intros x [<-|I]; [exact Iw|apply Inc; apply rm_in in I; tauto]|discriminate|].
  rewrite LB in Rs. replace (d + 1 - 1) with d in Rs by lia. exists s, srow. split; [exact Rs|].
  assert (forall x, In x row -> x <> v -> ~ In x keys) as KR by (intros x Ix Nx Kx; apply Nx; exact (one_goer (d + 1) h hrow x v ltac:(lia) Rh (Inc x Ix) (Inc v Iv) Kx Kv)). split.
  - intros x Ix. apply (Permutation_in _ Ps) in Ix as [<-|Ix]; [exact Kw|]. apply rm_in in Ix as [Ix Nx]. apply KR; assumption.
  - apply (Permutation_trans Ps). apply Permutation_sym. apply (Permutation_trans (Permutation_map img (rm_perm v row Nr Iv))). cbn [map]. rewrite (img_key v Kv). replace (onto v) with w by (apply goes_onto in G; tauto).
    destruct (keyless_stays 0 (rm v row)) as [_ ->]; [intros x Ix; apply rm_in in Ix as [Ix Nx]; apply KR; assumption|]. apply Permutation_refl.
Qed.
(** what does not fall stays different *)
Lemma stay_apart d e e' row row' : 1 <= d <= D -> ent_verts T d e row -> ent_verts T d e' row' -> ~ falls d row -> ~ falls d row' -> Permutation (map img row) (map img row') -> e = e'.
Proof.
  intros Hd R R' NF NF' P. apply (c_link _ _ _ _ HC d e e' row row' (map img row) (map img row') Hd R R' NF NF'); [apply becomes_map; reflexivity|apply becomes_map; reflexivity|exact P].
Qed.
(** a vertex falls exactly if it goes *)
Lemma vert_falls v : 0 <= v < t_nents T 0 -> falls 0 [v] <-> In v keys.
Proof.
  pose proof cdim as HD. intros Hv. split; [intros (x & w & G & [<-|[]] & _); apply G|]. intros I. exists v, (onto v). pose proof (ON v I) as G. split; [exact G|]. split; [left; reflexivity|]. right. split; [lia|]. destruct (goes_edge _ _ G) as (k & [R|R]); exists k; eexists; (split; [exact R|]); (split; [intros x [<-|[]]; cbn; auto|cbn; auto]).
Qed.
(** vertices that go have entities of all dimensions *)
Lemma key_in v d : In v keys -> 1 <= d <= D -> exists e row, ent_verts T d e row /\ In v row.
Proof.
  intros I Hd. destruct (goes_edge _ _ (ON v I)) as (k & [R|R]); (destruct (within T HS 1 k _ d ltac:(lia) R Hd) as (e & row & Re & Inc)); exists e, row; (split; [exact Re|apply Inc; cbn; auto]).
Qed.
End collapse.
