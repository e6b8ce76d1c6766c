(** One edge swap, from labels to vertices. *)
From Verif Require Import Prelude M_SwapTables M_Swap3d S_Swap3d P_SwapTables P_Loop P_SwapVolume.
From Coq Require Import Permutation.
Local Open Scope Z_scope.

Section key.
Variables (e0 e1 : Z) (l : list Z).
Notation n := (zlen l).
Notation f := (lab e0 e1 l).

Lemma get_lab i : 0 <= i < n -> zget l i = Ok (f i).
Proof.
  intros H. apply zget_ok. split; [lia|]. unfold lab. rewrite app_nth1 by (unfold zlen in H; lia). apply nth_error_nth'. unfold zlen in H. lia.
Qed.
Lemma lab_n : f n = e0.
Proof. unfold lab, zlen. rewrite Nat2Z.id, app_nth2 by lia. rewrite Nat.sub_diag. reflexivity. Qed.
Lemma lab_n1 : f (n + 1) = e1.
Proof. unfold lab, zlen. replace (Z.to_nat (Z.of_nat (length l) + 1)) with (S (length l)) by lia. rewrite app_nth2 by lia. replace (S (length l) - length l)%nat with 1%nat by lia. reflexivity. Qed.
Lemma map_lab : map f (zrange n) = l.
Proof.
  apply (nth_ext _ _ 0 0); rewrite map_length, zrange_length; [unfold zlen; lia|]. intros i Hi.
  rewrite (nth_indep _ 0 (f 0)) by (rewrite map_length, zrange_length; exact Hi). rewrite map_nth.
  assert (nth i (zrange n) 0 = Z.of_nat i) as -> by (apply nth_error_nth; apply zrange_nth; exact Hi). unfold lab. rewrite Nat2Z.id. apply app_nth1. unfold zlen in Hi. lia.
Qed.
Lemma in_labels_ok k t : in_labels k t = true -> forall i, In i t -> 0 <= i < k.
Proof. intros H i Hi. unfold in_labels in H. rewrite forallb_forall in H. specialize (H i Hi). lia. Qed.
Lemma mapM_lab t : in_labels n t = true -> mapM (zget l) t = Ok (map f t).
Proof. intros H. apply mapM_map_ok. intros i Hi. apply get_lab, (in_labels_ok _ _ H i Hi). Qed.
Lemma mapM_lab2 ts : forallb (in_labels n) ts = true -> mapM (mapM (zget l)) ts = Ok (map (map f) ts).
Proof. intros H. apply mapM_map_ok. intros t Ht. apply mapM_lab. rewrite forallb_forall in H. auto. Qed.

Lemma tri_of k t : len_is k t = true -> zlen t = k.
Proof. apply Z.eqb_eq. Qed.
Lemma len3 t : len_is 3 t = true -> exists x y z, t = [x; y; z].
Proof. intros H. apply tri_of in H. unfold zlen in H. destruct t as [|x [|y [|z [|? ?]]]]; cbn [length] in H; try lia. eauto. Qed.
Lemma len4 t : len_is 4 t = true -> exists x y z w, t = [x; y; z; w].
Proof. intros H. apply tri_of in H. unfold zlen in H. destruct t as [|x [|y [|z [|w [|? ?]]]]]; cbn [length] in H; try lia. eauto. Qed.

Lemma tets_lab ts : (forall t, In t ts -> exists x y z, t = [x; y; z]) -> exists tets, mapM (tri_tets [n; n + 1]) ts = Ok tets /\ mapM (tri_tets [e0; e1]) (map (map f) ts) = Ok (map (map (map f)) tets).
Proof.
  induction ts as [|t ts IH]; intros H; [exists []; auto|]. destruct IH as (tets & E1 & E2); [intros; apply H; right; assumption|]. destruct (H t) as (x & y & z & ->); [left; reflexivity|].
  exists ([[x; z; y; n]; [x; y; z; n + 1]] :: tets). cbn [map mapM]. rewrite E1, E2. cbn. rewrite lab_n, lab_n1. auto.
Qed.

End key.

(** ** what the sweep says *)
Lemma check_prods_at n m count : 3 <= n <= 7 -> zget swap_mesh_counts n = Ok count -> 0 <= m < count -> check_prods n m = true.
Proof.
  intros Hn Hc Hm. apply size_cases in Hn. pose proof check_prods_all as K. rewrite forallb_forall in K. apply K in Hn. unfold check_prods_size in Hn. apply oks_ok in Hn as (c & Ec & H).
  assert (c = count) as -> by congruence. rewrite forallb_forall in H. apply H, in_zrange, Hm.
Qed.

Record labels_ok (n m : Z) (T es fs rs : list (list Z)) (ne nt : Z) : Prop := {
  lo_T : config_tris n m = Ok T;
  lo_E : config_edges n m = Ok es;
  lo_prods : fs = flat_map (edge_tris [n; n + 1]) es ++ T;
  lo_rs : exists tets, mapM (tri_tets [n; n + 1]) T = Ok tets /\ rs = concat tets;
  lo_T3 : forall t, In t T -> exists x y z, t = [x; y; z];
  lo_Tn : forallb (in_labels n) T = true;
  lo_es2 : forall t, In t es -> zlen t = 2;
  lo_fs3 : forall t, In t fs -> zlen t = 3;
  lo_rs4 : forall t, In t rs -> zlen t = 4;
  lo_esn : forallb (in_labels n) es = true;
  lo_fsn : forall t, In t fs -> forall i, In i t -> 0 <= i < n + 2;
  lo_rsn : forall t, In t rs -> forall i, In i t -> 0 <= i < n + 2;
  lo_ne : zget nedges n = Ok ne;
  lo_nt : zget swap_mesh_sizes n = Ok nt;
  lo_les : zlen es = ne;
  lo_lfs : zlen fs = nt + 2 * ne;
  lo_lrs : zlen rs = 2 * nt;
  lo_red : reduce (flat_map tri_edges T ++ map flip (cycle (zrange n))) [] = [];
  lo_ndf : NoDup fs;
  lo_nde : NoDup es;
  lo_pair : forall x y, 0 <= x < n + 2 -> 0 <= y < n + 2 -> x <> y -> lists2b es x y = shareb rs x y && negb (shareb (old_labels n) x y);
  lo_face : forall x y z, 0 <= x < n + 2 -> 0 <= y < n + 2 -> 0 <= z < n + 2 -> distinct3 x y z = true ->
    (users rs x y z =? 1) = (users (old_labels n) x y z =? 1) /\ lists3b fs x y z = (users rs x y z =? 2);
  lo_gone : shareb rs n (n + 1) = false }.

Lemma label_self n ts : 0 <= n -> forallb (in_labels n) ts = true -> mapM (mapM (zget (zrange n))) ts = Ok ts.
Proof.
  intros Hn H. rewrite <- (map_id ts) at 2. apply mapM_map_ok. intros t Ht. rewrite <- (map_id t) at 2. apply mapM_map_ok. intros i Hi. rewrite forallb_forall in H. apply zget_zrange. apply (in_labels_ok _ _ (H t Ht) i Hi).
Qed.

Lemma labels n m count : 3 <= n <= 7 -> zget swap_mesh_counts n = Ok count -> 0 <= m < count -> exists T es fs rs ne nt, labels_ok n m T es fs rs ne nt.
Proof.
  intros Hn Hc Hm. pose proof (check_prods_at n m count Hn Hc Hm) as H. unfold check_prods in H. apply oks_ok in H as (T & ET & H). apply oks_ok in H as (E & EE & H). apply oks_ok in H as ([[es fs] rs] & EK & H).
  rewrite !andb_true_iff in H. destruct H as [[[[[[[[[[[[[[[H1 H2] H2'] H3] H4] H5] H6] H7] H8] H9] H10] H11] H12] H13] H14] H15].
  apply oks_ok in H9 as (ne & Ene & H9). apply oks_ok in H10 as (nt & Ent & H10). apply andb_true_iff in H10 as [H10 H10']. apply oks_ok in H10' as (ne' & Ene' & H10'). assert (ne' = ne) as -> by congruence.
  unfold key_prods, prod_edges, plane_tris in EK. cbn [loop_size label_loop loop_verts2verts eev2v] in EK. rewrite EE, ET in EK. cbn [bind] in EK.
  rewrite !label_self in EK by (assumption || lia). cbn [bind] in EK. apply bind_ok in EK as (tets & Etets & EK). injection EK as -> <- <-.
  assert (forall t, In t T -> exists x y z, t = [x; y; z]) as HT3. { intros t Ht. rewrite forallb_forall in H1. apply len3, H1, Ht. }
  exists T, es, (flat_map (edge_tris [n; n + 1]) es ++ T), (concat tets), ne, nt. constructor; auto.
  - exists tets; auto.
  - intros t Ht. rewrite forallb_forall in H3. apply tri_of, H3, Ht.
  - intros t Ht. rewrite forallb_forall in H4. apply tri_of, H4, Ht.
  - intros t Ht. rewrite forallb_forall in H5. apply tri_of, H5, Ht.
  - intros t Ht. rewrite forallb_forall in H7. apply in_labels_ok, H7, Ht.
  - intros t Ht. rewrite forallb_forall in H8. apply in_labels_ok, H8, Ht.
  - apply Z.eqb_eq, H9.
  - apply Z.eqb_eq, H10'.
  - apply Z.eqb_eq, H10.
  - apply eql_ok in H11. destruct (reduce _ _); [reflexivity | discriminate].
  - apply (nodup_by_ok meml meml_ok), H12.
  - apply (nodup_by_ok meml meml_ok), H13.
  - intros x y Hx Hy Hxy. rewrite forallb_forall in H14. specialize (H14 x (proj2 (in_zrange _ _) Hx)). rewrite forallb_forall in H14. specialize (H14 y (proj2 (in_zrange _ _) Hy)). apply andb_true_iff in H14 as [H14 _].
    destruct (Z.eqb_spec x y); [contradiction|]. apply Bool.eqb_prop, H14.
  - intros x y z Hx Hy Hz D. rewrite forallb_forall in H14. specialize (H14 x (proj2 (in_zrange _ _) Hx)). rewrite forallb_forall in H14. specialize (H14 y (proj2 (in_zrange _ _) Hy)). apply andb_true_iff in H14 as [_ H14].
    rewrite forallb_forall in H14. specialize (H14 z (proj2 (in_zrange _ _) Hz)). rewrite D in H14. apply andb_true_iff in H14 as [A B]. split; apply Bool.eqb_prop; assumption.
  - apply negb_true_iff, H15.
Qed.

(** ** transport along the labelling *)
Section transport.
Variables (e0 e1 : Z) (l : list Z).
Notation n := (zlen l).
Notation f := (lab e0 e1 l).
Hypothesis Hd : NoDup (e0 :: e1 :: l).

Lemma lab_inj i j : 0 <= i < n + 2 -> 0 <= j < n + 2 -> f i = f j -> i = j.
Proof.
  intros Hi Hj E. assert (NoDup (l ++ [e0; e1])) as N by (apply (Permutation_NoDup (l := [e0; e1] ++ l)); [apply Permutation_app_comm | exact Hd]).
  assert (length (l ++ [e0; e1]) = Z.to_nat (n + 2)) as L by (rewrite app_length; unfold zlen; cbn [length]; lia).
  apply (proj1 (NoDup_nth (l ++ [e0; e1]) 0) N) in E; [lia | rewrite L; lia..].
Qed.
Lemma has_lab t x : (forall i, In i t -> 0 <= i < n + 2) -> 0 <= x < n + 2 -> has (map f t) (f x) = has t x.
Proof.
  intros Ht Hx. unfold has. induction t as [|y t IH]; [reflexivity|]. cbn [map existsb]. rewrite IH by (intros; apply Ht; right; assumption). f_equal.
  destruct (Z.eqb_spec x y) as [->|N]; [apply Z.eqb_refl|]. apply Z.eqb_neq. intros E. apply N, lab_inj; auto. apply Ht. left. reflexivity.
Qed.
Lemma has_out t v : (forall i, In i t -> 0 <= i < n + 2) -> (forall x, 0 <= x < n + 2 -> v <> f x) -> has (map f t) v = false.
Proof.
  intros Ht Hv. unfold has. induction t as [|y t IH]; [reflexivity|]. cbn [map existsb]. rewrite IH by (intros; apply Ht; right; assumption). rewrite orb_false_r. apply Z.eqb_neq, Hv, Ht. left. reflexivity.
Qed.
Lemma filter_map_ext {A B} (g : A -> B) p q ts : (forall t, In t ts -> p (g t) = q t) -> filter p (map g ts) = map g (filter q ts).
Proof.
  induction ts as [|t ts IH]; intros H; [reflexivity|]. cbn [map filter]. rewrite H by (left; reflexivity). rewrite IH by (intros; apply H; right; assumption). destruct (q t); reflexivity.
Qed.
Lemma users_lab ts x y z : (forall t, In t ts -> forall i, In i t -> 0 <= i < n + 2) -> 0 <= x < n + 2 -> 0 <= y < n + 2 -> 0 <= z < n + 2 ->
  users (map (map f) ts) (f x) (f y) (f z) = users ts x y z.
Proof.
  intros Ht Hx Hy Hz. unfold users. rewrite (filter_map_ext (map f) _ (fun t => has t x && has t y && has t z)); [apply zlen_map|]. intros t H. rewrite !has_lab by eauto. reflexivity.
Qed.
Lemma users_out ts x y z : (forall t, In t ts -> forall i, In i t -> 0 <= i < n + 2) -> (exists v, In v [x; y; z] /\ forall i, 0 <= i < n + 2 -> v <> f i) -> users (map (map f) ts) x y z = 0.
Proof.
  intros Ht (v & Hv & Ho). unfold users. assert (filter (fun t => has t x && has t y && has t z) (map (map f) ts) = []) as ->; [|reflexivity].
  induction ts as [|t ts IH]; [reflexivity|]. cbn [map filter]. rewrite IH by (intros; eapply Ht; [right; eassumption | assumption]). assert (has (map f t) v = false) as E by (apply has_out; [apply Ht; left; reflexivity | exact Ho]).
  cbn [In] in Hv. destruct Hv as [->|[->|[->|[]]]]; rewrite E, ?andb_false_r; reflexivity.
Qed.
Lemma lab_cases v : (exists i, 0 <= i < n + 2 /\ v = f i) \/ (forall i, 0 <= i < n + 2 -> v <> f i).
Proof.
  destruct (in_dec Z.eq_dec v (map f (zrange (n + 2)))) as [H|H].
  - left. apply in_map_iff in H as (i & <- & Hi). apply in_zrange in Hi. eauto.
  - right. intros i Hi ->. apply H, in_map, in_zrange, Hi.
Qed.
Lemma cycle_map (g : Z -> Z) k : cycle (map g k) = map (fun p => (g (fst p), g (snd p))) (cycle k).
Proof.
  destruct k as [|a t]; [reflexivity|]. unfold cycle. cbn [map]. change (g a :: map g t) with (map g (a :: t)). replace (map g t ++ [g a]) with (map g (t ++ [a])) by (rewrite map_app; reflexivity).
  generalize (a :: t) (t ++ [a]). induction l0 as [|x u IH]; intros [|y v]; cbn; try reflexivity. f_equal. apply IH.
Qed.
Lemma old_lab : map (fun p => [e0; e1; fst p; snd p]) (cycle l) = map (map f) (old_labels n).
Proof. rewrite <- (map_lab e0 e1 l) at 1. rewrite cycle_map. unfold old_labels. rewrite !map_map. apply map_ext. intros p. cbn [fst snd map]. rewrite lab_n, lab_n1. reflexivity. Qed.
Lemma old_in : forall t, In t (old_labels n) -> forall i, In i t -> 0 <= i < n + 2.
Proof.
  intros t Ht i Hi. pose proof (zlen_nonneg l). apply in_map_iff in Ht as (p & <- & Hp). cbn [In] in Hi.
  assert (In (fst p) (zrange n)) as Hf by (rewrite <- cycle_fst; apply in_map, Hp). apply in_zrange in Hf.
  assert (In (snd p) (zrange n)) as Hs. { destruct (zrange n) as [|a u] eqn:E; [contradiction|]. unfold cycle in Hp. apply (in_map snd) in Hp. rewrite map_snd_combine in Hp by (rewrite app_length; cbn; lia). apply in_app_or in Hp as [Hp|[Hp|[]]]; [right | left]; auto. }
  apply in_zrange in Hs. destruct Hi as [<-|[<-|[<-|[<-|[]]]]]; lia.
Qed.
Lemma has_orient t u x : same_orientation t u -> has u x = has t x.
Proof.
  destruct t as [|p [|q [|r [|s [|? ?]]]]]; cbn [same_orientation]; try tauto. intros H. cbn [In] in H. unfold has.
  repeat (destruct H as [<- | H]; [cbn [existsb]; rewrite !orb_false_r; destruct (x =? p), (x =? q), (x =? r), (x =? s); reflexivity|]). contradiction.
Qed.
Lemma users_ring tets x y z : ring_of_tets e0 e1 l tets -> users tets x y z = users (map (map f) (old_labels n)) x y z.
Proof.
  intros (_ & pairs & HP & HF). rewrite <- old_lab.
  assert (users tets x y z = users (map (fun p => [e0; e1; fst p; snd p]) pairs) x y z) as ->.
  { clear HP. unfold users. induction HF as [|t p tets pairs H _ IH]; [reflexivity|]. cbn [map filter]. rewrite !(has_orient _ _ _ H). destruct (has _ x && _ && _); [rewrite !zlen_cons; congruence | exact IH]. }
  apply (Permutation_map (fun p => [e0; e1; fst p; snd p])) in HP. revert HP. generalize (map (fun p => [e0; e1; fst p; snd p]) pairs) (map (fun p => [e0; e1; fst p; snd p]) (cycle l)). unfold users.
  induction 1 as [|t u v _ IH|t t' u|u v w _ IH1 _ IH2]; cbn [filter]; [reflexivity | destruct (_ && _); [rewrite !zlen_cons; congruence | exact IH] | destruct (has t' x && _ && _), (has t x && _ && _); rewrite ?zlen_cons; reflexivity | congruence].
Qed.
Lemma has_ok t x : has t x = true <-> In x t.
Proof. unfold has. rewrite existsb_exists. split; [intros (y & H & E); apply Z.eqb_eq in E as ->; exact H | intros H; exists x; split; [exact H | apply Z.eqb_refl]]. Qed.
Lemma shareb_ok ts x y : shareb ts x y = true <-> share ts x y.
Proof. unfold shareb, share. rewrite existsb_exists. split; intros (t & H & K); exists t; (split; [exact H|]); rewrite andb_true_iff, !has_ok in *; exact K. Qed.
Lemma share_ring tets x y : ring_of_tets e0 e1 l tets -> shareb tets x y = shareb (map (map f) (old_labels n)) x y.
Proof.
  intros (_ & pairs & HP & HF). rewrite <- old_lab.
  assert (shareb tets x y = shareb (map (fun p => [e0; e1; fst p; snd p]) pairs) x y) as ->.
  { clear HP. unfold shareb. induction HF as [|t p tets pairs H _ IH]; [reflexivity|]. cbn [map existsb]. rewrite !(has_orient _ _ _ H), IH. reflexivity. }
  apply (Permutation_map (fun p => [e0; e1; fst p; snd p])) in HP. revert HP. generalize (map (fun p => [e0; e1; fst p; snd p]) pairs) (map (fun p => [e0; e1; fst p; snd p]) (cycle l)). unfold shareb.
  induction 1 as [|t u v _ IH|t t' u|u v w _ IH1 _ IH2]; cbn [existsb]; [reflexivity | rewrite IH; reflexivity | rewrite !orb_assoc; f_equal; apply orb_comm | congruence].
Qed.
Lemma share_lab ts x y : (forall t, In t ts -> forall i, In i t -> 0 <= i < n + 2) -> 0 <= x < n + 2 -> 0 <= y < n + 2 -> shareb (map (map f) ts) (f x) (f y) = shareb ts x y.
Proof.
  intros Ht Hx Hy. unfold shareb. induction ts as [|t ts IH]; [reflexivity|]. cbn [map existsb]. rewrite IH by (intros; eapply Ht; [right; eassumption | assumption]). rewrite !has_lab by (try assumption; apply Ht; left; reflexivity). reflexivity.
Qed.
Lemma share_out ts x y : (forall t, In t ts -> forall i, In i t -> 0 <= i < n + 2) -> (exists v, In v [x; y] /\ forall i, 0 <= i < n + 2 -> v <> f i) -> shareb (map (map f) ts) x y = false.
Proof.
  intros Ht (v & Hv & Ho). unfold shareb. induction ts as [|t ts IH]; [reflexivity|]. cbn [map existsb]. rewrite IH by (intros; eapply Ht; [right; eassumption | assumption]). assert (has (map f t) v = false) as E by (apply has_out; [apply Ht; left; reflexivity | exact Ho]).
  cbn [In] in Hv. destruct Hv as [->|[->|[]]]; rewrite E, ?andb_false_r; reflexivity.
Qed.
Lemma map_lab_inj t : forall u, (forall i, In i t -> 0 <= i < n + 2) -> (forall i, In i u -> 0 <= i < n + 2) -> map f t = map f u -> t = u.
Proof.
  induction t as [|x t IH]; intros [|y u] Ht Hu E; cbn in E; try discriminate; [reflexivity|]. injection E as E1 E2. f_equal; [apply lab_inj; auto; [apply Ht | apply Hu]; left; reflexivity|].
  apply IH; auto; [intros i Hi; apply Ht | intros i Hi; apply Hu]; right; exact Hi.
Qed.
Lemma in_map_lab ts t : (forall t, In t ts -> forall i, In i t -> 0 <= i < n + 2) -> (forall i, In i t -> 0 <= i < n + 2) -> (In (map f t) (map (map f) ts) <-> In t ts).
Proof.
  intros Hts Ht. split; [|apply in_map]. intros H. apply in_map_iff in H as (u & E & Hu). apply map_lab_inj in E as ->; auto. apply Hts, Hu.
Qed.
Lemma in_map_out ts t : (forall t, In t ts -> forall i, In i t -> 0 <= i < n + 2) -> (exists v, In v t /\ forall i, 0 <= i < n + 2 -> v <> f i) -> ~ In t (map (map f) ts).
Proof.
  intros Hts (v & Hv & Ho) H. apply in_map_iff in H as (u & <- & Hu). apply in_map_iff in Hv as (i & <- & Hi). apply (Ho i); [apply (Hts u Hu i Hi) | reflexivity].
Qed.
Lemma lists3_ok fs x y z : lists3b fs x y z = true <-> lists3 fs x y z.
Proof. unfold lists3b, lists3. rewrite existsb_exists. split; intros (g & H & K); exists g; (split; [exact H|]); apply meml_ok; exact K. Qed.
Lemma lists3_lab fs x y z : (forall t, In t fs -> forall i, In i t -> 0 <= i < n + 2) -> 0 <= x < n + 2 -> 0 <= y < n + 2 -> 0 <= z < n + 2 -> (lists3 (map (map f) fs) (f x) (f y) (f z) <-> lists3 fs x y z).
Proof.
  intros Hf Hx Hy Hz. unfold lists3. split.
  - intros (g & Hg & Hp). apply in_map_iff in Hg as (t & <- & Ht). exists t. split; [exact Ht|].
    apply (in_map_lab (perms3 x y z) t); [| apply Hf, Ht | exact Hp]. intros u Hu i Hi. cbn [perms3 In] in Hu. repeat (destruct Hu as [<-|Hu]; [cbn [In] in Hi; destruct Hi as [<-|[<-|[<-|[]]]]; assumption|]). contradiction.
  - intros (t & Ht & Hp). exists (map f t). split; [apply in_map, Ht|]. change (In (map f t) (map (map f) (perms3 x y z))). apply in_map, Hp.
Qed.

Theorem key_swap m count tets : 3 <= n <= 7 -> zget swap_mesh_counts n = Ok count -> 0 <= m < count -> ring_of_tets e0 e1 l tets ->
  exists es fs rs ne nt, key_prods (mk_loop n [e0; e1] l) m = Ok (es, fs, rs) /\ zget nedges n = Ok ne /\ zget swap_mesh_sizes n = Ok nt /\
  zlen es = ne /\ zlen fs = nt + 2 * ne /\ zlen rs = 2 * nt /\
  (forall t, In t es -> zlen t = 2) /\ (forall t, In t fs -> zlen t = 3) /\ (forall t, In t rs -> zlen t = 4) /\
  (forall (R : Type) (rO rI : R) radd rmul rsub ropp, ring_theory rO rI radd rmul rsub ropp eq -> forall c, sum_over rO radd (volume rO radd rmul rsub c) rs = sum_over rO radd (volume rO radd rmul rsub c) tets) /\
  (forall x y z, boundary_face rs x y z <-> boundary_face tets x y z) /\
  NoDup fs /\ (forall x y z, NoDup [x; y; z] -> (lists3 fs x y z <-> interior_face rs x y z)) /\
  NoDup es /\ (forall x y, x <> y -> (lists2 es x y <-> share rs x y /\ ~ share tets x y)) /\ ~ share rs e0 e1.
Proof.
  intros Hn Hc Hm Hr. destruct (labels n m count Hn Hc Hm) as (T & es & fs & rs & ne & nt & L).
  assert (forall t, In t es -> forall i, In i t -> 0 <= i < n + 2) as Hesn. { intros t Ht i Hi. pose proof (lo_esn _ _ _ _ _ _ _ _ L) as K. rewrite forallb_forall in K. pose proof (in_labels_ok _ _ (K t Ht) i Hi). lia. }
  pose proof (lo_fsn _ _ _ _ _ _ _ _ L) as Hfsn. pose proof (lo_rsn _ _ _ _ _ _ _ _ L) as Hrsn.
  destruct (lo_rs _ _ _ _ _ _ _ _ L) as (tl & Etl & Ers). destruct (tets_lab e0 e1 l T (lo_T3 _ _ _ _ _ _ _ _ L)) as (tl' & Etl' & Etl2). assert (tl' = tl) as -> by congruence.
  exists (map (map f) es), (map (map f) fs), (map (map f) rs), ne, nt.
  assert (key_prods (mk_loop n [e0; e1] l) m = Ok (map (map f) es, map (map f) fs, map (map f) rs)) as EK.
  { unfold key_prods, prod_edges, plane_tris. cbn [loop_size loop_verts2verts eev2v]. rewrite (lo_E _ _ _ _ _ _ _ _ L), (lo_T _ _ _ _ _ _ _ _ L). cbn [bind].
    rewrite (mapM_lab2 e0 e1 l es) by apply (lo_esn _ _ _ _ _ _ _ _ L). rewrite (mapM_lab2 e0 e1 l T) by apply (lo_Tn _ _ _ _ _ _ _ _ L). cbn [bind]. rewrite Etl2. cbn [bind]. 
    rewrite (lo_prods _ _ _ _ _ _ _ _ L), Ers. do 2 f_equal; [f_equal|].
    - rewrite map_app. f_equal. clear. induction es as [|e es IH]; [reflexivity|]. cbn [map flat_map]. rewrite map_app, IH. f_equal. unfold edge_tris. cbn [map]. rewrite !map_app. cbn [map]. rewrite lab_n, lab_n1. reflexivity.
    - clear. induction tl as [|a tl IH]; [reflexivity|]. cbn [map concat]. rewrite map_app, IH. reflexivity. }
  split; [exact EK|]. split; [apply (lo_ne _ _ _ _ _ _ _ _ L)|]. split; [apply (lo_nt _ _ _ _ _ _ _ _ L)|]. rewrite !zlen_map. split; [apply (lo_les _ _ _ _ _ _ _ _ L)|]. split; [apply (lo_lfs _ _ _ _ _ _ _ _ L)|]. split; [apply (lo_lrs _ _ _ _ _ _ _ _ L)|].
  split. { intros t Ht. apply in_map_iff in Ht as (u & <- & Hu). rewrite zlen_map. apply (lo_es2 _ _ _ _ _ _ _ _ L u Hu). }
  split. { intros t Ht. apply in_map_iff in Ht as (u & <- & Hu). rewrite zlen_map. apply (lo_fs3 _ _ _ _ _ _ _ _ L u Hu). }
  split. { intros t Ht. apply in_map_iff in Ht as (u & <- & Hu). rewrite zlen_map. apply (lo_rs4 _ _ _ _ _ _ _ _ L u Hu). }
  split.
  { intros R rO rI radd rmul rsub ropp Rth c. rewrite (ring_sum _ _ _ _ _ _ Rth c e0 e1 l tets Hr).
    replace (map (map f) rs) with (concat (map (map (map f)) tl)) by (rewrite Ers; clear; induction tl as [|a tl IH]; [reflexivity|]; cbn [map concat]; rewrite map_app, IH; reflexivity).
    rewrite (tets_sum _ _ _ _ _ _ Rth c e0 e1 (map (map f) T)); [| intros t Ht; apply in_map_iff in Ht as (u & <- & Hu); destruct (lo_T3 _ _ _ _ _ _ _ _ L u Hu) as (x & y & z & ->); cbn; eauto | exact Etl2].
    set (F := fun x y => volume rO radd rmul rsub c [e0; e1; x; y]).
    assert (forall g, sum_edges rO radd F (map (fun p => (f (fst p), f (snd p))) g) = sum_edges rO radd (fun x y => F (f x) (f y)) g) as SM. { clear. induction g as [|p g IH]; [reflexivity|]. cbn [map sum_edges fold_right fst snd]. unfold sum_edges in IH. rewrite IH. reflexivity. }
    assert (cycle l = map (fun p => (f (fst p), f (snd p))) (cycle (zrange n))) as -> by (rewrite <- cycle_map, map_lab; reflexivity). rewrite SM.
    assert (flat_map tri_edges (map (map f) T) = map (fun p => (f (fst p), f (snd p))) (flat_map tri_edges T)) as ->.
    { clear. induction T as [|t T IH]; [reflexivity|]. cbn [map flat_map]. rewrite map_app, IH. f_equal. destruct t as [|a [|b [|d [|? ?]]]]; reflexivity. }
    rewrite SM. apply (reduce_equal _ _ _ _ _ _ Rth); [intros x y; apply (vol_swap _ _ _ _ _ _ Rth) | exact (lo_red _ _ _ _ _ _ _ _ L)]. }
  assert (forall x y z, NoDup [x; y; z] -> (users (map (map f) rs) x y z =? 1) = (users tets x y z =? 1) /\ (lists3 (map (map f) fs) x y z <-> users (map (map f) rs) x y z = 2)) as KF.
  { intros x y z Hxyz. rewrite (users_ring tets x y z Hr).
    destruct (lab_cases x) as [(i & Hi & Ex)|Hx]; [|assert (exists v, In v [x; y; z] /\ forall i, 0 <= i < n + 2 -> v <> f i) as O by (exists x; cbn; auto); rewrite (users_out rs x y z Hrsn O), (users_out _ x y z old_in O); split; [reflexivity | split; [intros (g & Hg & Hp); exfalso; apply (in_map_out fs g Hfsn); [|exact Hg]; exists x; split; [cbn [In] in Hp; intuition (subst; cbn; auto) | exact Hx] | lia]]].
    destruct (lab_cases y) as [(j & Hj & Ey)|Hy]; [|assert (exists v, In v [x; y; z] /\ forall i, 0 <= i < n + 2 -> v <> f i) as O by (exists y; cbn; auto); rewrite (users_out rs x y z Hrsn O), (users_out _ x y z old_in O); split; [reflexivity | split; [intros (g & Hg & Hp); exfalso; apply (in_map_out fs g Hfsn); [|exact Hg]; exists y; split; [cbn [In] in Hp; intuition (subst; cbn; auto) | exact Hy] | lia]]].
    destruct (lab_cases z) as [(k & Hk & Ez)|Hz]; [|assert (exists v, In v [x; y; z] /\ forall i, 0 <= i < n + 2 -> v <> f i) as O by (exists z; cbn; auto); rewrite (users_out rs x y z Hrsn O), (users_out _ x y z old_in O); split; [reflexivity | split; [intros (g & Hg & Hp); exfalso; apply (in_map_out fs g Hfsn); [|exact Hg]; exists z; split; [cbn [In] in Hp; intuition (subst; cbn; auto) | exact Hz] | lia]]].
    rewrite Ex, Ey, Ez in *. rewrite (users_lab rs i j k Hrsn Hi Hj Hk), (users_lab _ i j k old_in Hi Hj Hk), (lists3_lab fs i j k Hfsn Hi Hj Hk).
    destruct (lo_face _ _ _ _ _ _ _ _ L i j k Hi Hj Hk) as [A B].
    - unfold distinct3. inversion Hxyz as [|? ? N1 H1]; subst. inversion H1 as [|? ? N2 _]; subst. cbn [In] in N1, N2. rewrite !andb_true_iff, !negb_true_iff, !Z.eqb_neq. repeat split; intros E; subst; tauto.
    - split; [exact A|]. rewrite <- lists3_ok, B. apply Z.eqb_eq. }
  split. { intros x y z. unfold boundary_face. split; intros [N U]; (split; [exact N|]); destruct (KF x y z N) as [A _]; apply Z.eqb_eq in U; apply Z.eqb_eq; congruence. }
  assert (forall ts, (forall t, In t ts -> forall i, In i t -> 0 <= i < n + 2) -> NoDup ts -> NoDup (map (map f) ts)) as ND.
  { intros ts Ht N. induction N as [|t ts N1 N IH]; cbn [map]; constructor; [|apply IH; intros; eapply Ht; [right; eassumption | assumption]]. rewrite in_map_lab; [exact N1 | intros; eapply Ht; [right; eassumption | assumption] | apply Ht; left; reflexivity]. }
  split; [apply ND; [exact Hfsn | apply (lo_ndf _ _ _ _ _ _ _ _ L)]|].
  split. { intros x y z N. destruct (KF x y z N) as [_ B]. rewrite B. unfold interior_face. tauto. }
  split; [apply ND; [exact Hesn | apply (lo_nde _ _ _ _ _ _ _ _ L)]|].
  split.
  { intros x y N. rewrite <- !shareb_ok, (share_ring tets x y Hr).
    assert (forall v, In v [x; y] -> (forall i, 0 <= i < n + 2 -> v <> f i) -> (lists2 (map (map f) es) x y <-> shareb (map (map f) rs) x y = true /\ ~ shareb (map (map f) (old_labels n)) x y = true)) as KO.
    { intros v Hv Hv2. rewrite (share_out rs x y Hrsn) by eauto. split; [|intros [? _]; discriminate]. intros [K|K]; exfalso; refine (in_map_out es _ Hesn _ K); exists v; (split; [cbn [In] in *; tauto | exact Hv2]). }
    destruct (lab_cases x) as [(i & Hi & Ex)|Hx]; [|apply (KO x); [cbn; auto | exact Hx]]. destruct (lab_cases y) as [(j & Hj & Ey)|Hy]; [|apply (KO y); [cbn; auto | exact Hy]].
    rewrite Ex, Ey in *. rewrite (share_lab rs i j Hrsn Hi Hj), (share_lab _ i j old_in Hi Hj). 
    assert (lists2 (map (map f) es) (f i) (f j) <-> lists2b es i j = true) as ->.
    { unfold lists2, lists2b. change [f i; f j] with (map f [i; j]). change [f j; f i] with (map f [j; i]). rewrite !in_map_lab by (assumption || (cbn [In]; intuition lia)). rewrite orb_true_iff, !meml_ok. reflexivity. }
    rewrite (lo_pair _ _ _ _ _ _ _ _ L i j Hi Hj) by congruence. rewrite andb_true_iff, negb_true_iff. destruct (shareb (old_labels n) i j); intuition congruence. }
  rewrite <- shareb_ok. assert (shareb (map (map f) rs) e0 e1 = shareb rs n (n + 1)) as -> by (rewrite <- (share_lab rs n (n + 1)) by (assumption || lia); rewrite lab_n, lab_n1; reflexivity). rewrite (lo_gone _ _ _ _ _ _ _ _ L). discriminate.
Qed.
End transport.
