(** choose finds the best admissible configuration. *)
From Verif Require Import Prelude M_SwapTables M_Swap3d S_Swap3d S_SwapChoice P_SwapTables P_Loop P_SwapVolume P_SwapKey S_SwapMesh P_SwapTopo.
Local Open Scope Z_scope.

Lemma min2_min x y : min2 x y = Z.min x y.
Proof. unfold min2. destruct (Z.ltb_spec y x); lia. Qed.

Lemma zget_0' {A} (x : A) l : zget (x :: l) 0 = Ok x. Proof. reflexivity. Qed.
Lemma zget_1' {A} (x y : A) l : zget (x :: y :: l) 1 = Ok y. Proof. reflexivity. Qed.
Lemma zget_2' {A} (x y z : A) l : zget (x :: y :: z :: l) 2 = Ok z. Proof. reflexivity. Qed.

(** ** the sweep: indices used by the tables *)
Definition check_uniq (n m : Z) : bool :=
  oks (zget swap_mesh_sizes n) (fun nt => oks (zget swap_meshes n) (fun ms => oks (zget swap_triangles n) (fun u2v =>
  oks (tabulate nt (fun i => zget ms (m * nt + i))) (fun us => oks (mapM (zget u2v) us) (fun T =>
    forallb (fun u => (0 <=? u) && (u <? MAX_UNIQUE_TRIS)) us && forallb (len_is 3) T && forallb (in_labels n) T))))) &&
  oks (zget nedges n) (fun ne => oks (zget edges2unique n) (fun e2u => oks (zget unique_edges n) (fun u2v =>
  if ne =? 0 then true else
  oks (zget e2u m) (fun cu => oks (tabulate ne (fun i => zget cu i)) (fun us => oks (mapM (zget u2v) us) (fun E =>
    forallb (fun u => (0 <=? u) && (u <? MAX_UNIQUE_EDGES)) us && forallb (in_labels n) E)))))).
Definition check_uniq_size (n : Z) : bool := oks (zget swap_mesh_counts n) (fun count => forallb (check_uniq n) (zrange count)).
Lemma check_uniq_all : forallb check_uniq_size [3; 4; 5; 6; 7] = true.
Proof. vm_compute. reflexivity. Qed.

Record uniq_ok (n m : Z) (us ues : list Z) (T E : list (list Z)) : Prop := {
  uo_us : exists nt ms, zget swap_mesh_sizes n = Ok nt /\ zget swap_meshes n = Ok ms /\ tabulate nt (fun i => zget ms (m * nt + i)) = Ok us;
  uo_T : exists u2v, zget swap_triangles n = Ok u2v /\ mapM (zget u2v) us = Ok T;
  uo_tris : config_tris n m = Ok T;
  uo_ur : forall u, In u us -> 0 <= u < MAX_UNIQUE_TRIS;
  uo_T3 : forall t, In t T -> exists x y z, t = [x; y; z];
  uo_Tn : forallb (in_labels n) T = true;
  uo_ues : exists ne, zget nedges n = Ok ne /\ tabulate ne (fun i => e2u <- zget edges2unique n ;; cu <- zget e2u m ;; zget cu i) = Ok ues;
  uo_E : exists u2v, zget unique_edges n = Ok u2v /\ mapM (zget u2v) ues = Ok E;
  uo_edges : config_edges n m = Ok E;
  uo_er : forall u, In u ues -> 0 <= u < MAX_UNIQUE_EDGES;
  uo_En : forallb (in_labels n) E = true }.

Lemma mapM_compose {A B C} (f : A -> res B) (g : B -> res C) l us ts : mapM f l = Ok us -> mapM g us = Ok ts -> mapM (fun x => y <- f x ;; g y) l = Ok ts.
Proof.
  revert us ts. induction l as [|x l IH]; intros us ts Hu Ht; cbn [mapM] in Hu; [injection Hu as <-; exact Ht|].
  apply bind_ok in Hu as (y & Ey & Hu). apply bind_ok in Hu as (us' & Eu & Hu). injection Hu as <-. cbn [mapM] in Ht. apply bind_ok in Ht as (t & Et & Ht). apply bind_ok in Ht as (ts' & Ets & Ht). injection Ht as <-.
  cbn [mapM]. rewrite Ey. cbn [bind]. rewrite Et. cbn [bind]. rewrite (IH us' ts' Eu Ets). reflexivity.
Qed.

Lemma uniq n m count : 3 <= n <= 7 -> zget swap_mesh_counts n = Ok count -> 0 <= m < count -> exists us ues T E, uniq_ok n m us ues T E.
Proof.
  intros Hn Hc Hm. pose proof Hn as Hn'. apply size_cases in Hn'. pose proof check_uniq_all as K. rewrite forallb_forall in K. apply K in Hn'. unfold check_uniq_size in Hn'. apply oks_ok in Hn' as (c & Ec & H).
  assert (c = count) as -> by congruence. rewrite forallb_forall in H. specialize (H m (proj2 (in_zrange _ _) Hm)). clear K. unfold check_uniq in H. apply andb_true_iff in H as [H1 H2].
  apply oks_ok in H1 as (nt & Ent & H1). apply oks_ok in H1 as (ms & Ems & H1). apply oks_ok in H1 as (u2v & Eu & H1). apply oks_ok in H1 as (us & Eus & H1). apply oks_ok in H1 as (T & ET & H1).
  rewrite !andb_true_iff in H1. destruct H1 as [[A1 A2] A3].
  assert (config_tris n m = Ok T) as ETc. { unfold config_tris. rewrite Ent. cbn [bind]. unfold tabulate. rewrite <- (mapM_compose _ _ _ us T Eus ET). apply mapM_ext. intros i _. unfold plane_tri. rewrite Ent. cbn [bind]. rewrite Ems. cbn [bind]. rewrite Eu. reflexivity. }
  apply oks_ok in H2 as (ne & Ene & H2). apply oks_ok in H2 as (e2u & Ee & H2). apply oks_ok in H2 as (eu2v & Eeu & H2).
  assert (exists ues E, tabulate ne (fun i => e2u <- zget edges2unique n ;; cu <- zget e2u m ;; zget cu i) = Ok ues /\ mapM (zget eu2v) ues = Ok E /\ (forall u, In u ues -> 0 <= u < MAX_UNIQUE_EDGES) /\ forallb (in_labels n) E = true) as (ues & E & B1 & B2 & B3 & B4).
  { destruct (Z.eqb_spec ne 0) as [->|_]; [exists [], []; split; [reflexivity|]; split; [reflexivity|]; split; [intros ? [] | reflexivity]|].
    apply oks_ok in H2 as (cu & Ecu & H2). apply oks_ok in H2 as (ues & Eues & H2). apply oks_ok in H2 as (E & EE & H2). apply andb_true_iff in H2 as [B1 B2]. exists ues, E. split.
    - rewrite <- Eues. apply mapM_ext. intros i _. rewrite Ee. cbn [bind]. rewrite Ecu. reflexivity.
    - split; [exact EE|]. split; [|exact B2]. intros u Hu. rewrite forallb_forall in B1. specialize (B1 u Hu). lia. }
  exists us, ues, T, E. constructor; eauto.
  - intros u Hu. rewrite forallb_forall in A1. specialize (A1 u Hu). lia.
  - intros t Ht. rewrite forallb_forall in A2. apply len3, A2, Ht.
  - unfold config_edges. rewrite Ene. cbn [bind]. unfold tabulate. rewrite <- (mapM_compose _ _ _ ues E B1 B2). apply mapM_ext. intros i _. unfold plane_edge. rewrite Ee. cbn [bind]. destruct (zget e2u m) as [cu| |]; cbn [bind]; try reflexivity. rewrite Eeu. reflexivity.
Qed.

(** ** caches *)
Definition valid (N : Z) (F : Z -> res Z) (c : cache) : Prop := zlen c = N /\ forall u q, zget c u = Ok (Some q) -> F u = Ok q.
Lemma recall_ok N F c u q : valid N F c -> 0 <= u < N -> F u = Ok q -> exists c', recall c u (F u) = Ok (q, c') /\ valid N F c'.
Proof.
  intros [L H] Hu E. unfold recall. destruct (zget_in_range c u) as (o & Eo); [lia|]. rewrite Eo. cbn [bind]. destruct o as [q'|].
  - exists c. rewrite (H u q' Eo) in E. injection E as ->. split; [reflexivity | split; assumption].
  - rewrite E. cbn [bind]. destruct (zset_in_range c u (Some q)) as (c' & Ec); [lia|]. rewrite Ec. exists c'. split; [reflexivity|]. split; [rewrite (zset_zlen _ _ _ _ Ec); exact L|].
    intros v r Hv. destruct (Z.eq_dec v u) as [->|N']; [rewrite (zset_get_eq _ _ _ _ Ec) in Hv; congruence|]. rewrite (zset_get_ne _ _ _ _ _ Ec) in Hv by congruence. apply H, Hv.
Qed.

Section choose.
Variables (one : Z) (quality length : list Z -> Z) (max_length : Z) (e0 e1 : Z) (lv : list Z).
Notation n := (zlen lv).
Notation l := (mk_loop n [e0; e1] lv).
Notation f := (lab e0 e1 lv).

Definition tetsq (t : list Z) : Z := match t with [x; y; z] => Z.min (Z.min one (quality [f x; f y; f z; e1])) (quality [f x; f z; f y; e0]) | _ => 0 end.
Lemma tri_quality_ok u2v u t : zget swap_triangles n = Ok u2v -> zget u2v u = Ok t -> (exists x y z, t = [x; y; z]) -> in_labels n t = true -> tri_quality one quality l u = Ok (tetsq t).
Proof.
  intros E1 E2 (x & y & z & ->) Ht. unfold tri_quality. cbn [loop_size]. rewrite E1. cbn [bind]. rewrite E2. cbn [bind loop_verts2verts]. rewrite (mapM_lab e0 e1 lv _ Ht). cbn [map bind eev2v]. rewrite !zget_0', !zget_1', !zget_2'. cbn [bind]. rewrite !min2_min. reflexivity.
Qed.

Lemma mesh_quality_ok us T : Forall2 (fun u t => tri_quality one quality l u = Ok (tetsq t)) us T -> (forall u, In u us -> 0 <= u < MAX_UNIQUE_TRIS) -> forall acc c, valid MAX_UNIQUE_TRIS (tri_quality one quality l) c ->
  exists q c', mesh_quality one quality l us acc c = Ok (q, c') /\ valid MAX_UNIQUE_TRIS (tri_quality one quality l) c' /\
  let M := fold_left Z.min (map tetsq T) acc in q = M \/ q < 0 /\ M < 0.
Proof.
  assert (forall ts a, fold_left Z.min ts a <= a) as FL. { induction ts as [|x ts IH]; intros a; cbn [fold_left]; [lia|]. specialize (IH (Z.min a x)). lia. }
  induction 1 as [|u t us T Hu _ IH]; intros Hr acc c Hc; [exists acc, c; cbn; auto|].
  destruct (recall_ok _ _ c u _ Hc (Hr u (or_introl eq_refl)) Hu) as (c' & Ec & Hc'). cbn [mesh_quality]. rewrite Ec. cbn [bind]. rewrite min2_min. cbn [map fold_left].
  destruct (Z.ltb_spec (Z.min acc (tetsq t)) 0) as [N|N].
  - eexists _, c'. split; [reflexivity|]. split; [exact Hc'|]. right. split; [exact N|]. pose proof (FL (map tetsq T) (Z.min acc (tetsq t))). lia.
  - destruct (IH (fun v Hv => Hr v (or_intror Hv)) (Z.min acc (tetsq t)) c' Hc') as (q & c2 & E & V & M). rewrite E. eauto.
Qed.

Definition edgel (e : list Z) : Z := length (map f e).
Lemma overshoots_ok us E : Forall2 (fun u e => edge_len length l u = Ok (edgel e)) us E -> (forall u, In u us -> 0 <= u < MAX_UNIQUE_EDGES) -> forall c, valid MAX_UNIQUE_EDGES (edge_len length l) c ->
  exists o c', overshoots length max_length l us c = Ok (o, c') /\ valid MAX_UNIQUE_EDGES (edge_len length l) c' /\ (o = false <-> forall e, In e E -> edgel e <= max_length).
Proof.
  induction 1 as [|u e us E Hu _ IH]; intros Hr c Hc; [exists false, c; split; [reflexivity|]; split; [exact Hc|]; split; [intros _ ? [] | reflexivity]|].
  destruct (recall_ok _ _ c u _ Hc (Hr u (or_introl eq_refl)) Hu) as (c' & Ec & Hc'). cbn [overshoots]. rewrite Ec. cbn [bind]. destruct (Z.gtb_spec (edgel e) max_length) as [N|N].
  - exists true, c'. split; [reflexivity|]. split; [exact Hc'|]. split; [discriminate|]. intros H. specialize (H e (or_introl eq_refl)). lia.
  - destruct (IH (fun v Hv => Hr v (or_intror Hv)) c' Hc') as (o & c2 & E2 & V & M). rewrite E2. exists o, c2. split; [reflexivity|]. split; [exact V|]. rewrite M. split; [intros H x [<-|Hx]; [lia | auto] | intros H x Hx; apply H; right; exact Hx].
Qed.

(** ** the tets of a configuration and its quality *)
Lemma worst_tets T tets : (forall t, In t T -> exists x y z, t = [x; y; z]) -> mapM (tri_tets [e0; e1]) (map (map f) T) = Ok tets -> worst one quality (concat tets) = fold_left Z.min (map tetsq T) one.
Proof.
  intros HT HE. rewrite (fold_symmetric Z.min Z.min_assoc one (fun x => Z.min_comm one x)). revert tets HE. induction T as [|t T IH]; intros tets HE; [injection HE as <-; reflexivity|].
  destruct (HT t) as (x & y & z & ->); [left; reflexivity|]. cbn [map mapM] in HE. apply bind_ok in HE as (ts & Ets & HE). cbn in Ets. injection Ets as <-. apply bind_ok in HE as (rest & Er & HE). injection HE as <-.
  cbn [concat app worst fold_right map tetsq]. specialize (IH (fun t Ht => HT t (or_intror Ht)) rest Er). unfold worst in IH. rewrite IH.
  assert (forall qs, fold_right Z.min one qs <= one) as B by (induction qs as [|q qs IHq]; cbn [fold_right]; lia). pose proof (B (map tetsq T)). lia.
Qed.

Hypothesis Hn : 3 <= n <= 7.
Variable count : Z.
Hypothesis Hcount : zget swap_mesh_counts n = Ok count.

Lemma config_prods m : 0 <= m < count -> exists us ues T E es fs rs, uniq_ok n m us ues T E /\ key_prods l m = Ok (es, fs, rs) /\ es = map (map f) E /\ worst one quality rs = fold_left Z.min (map tetsq T) one.
Proof.
  intros Hm. destruct (uniq n m count Hn Hcount Hm) as (us & ues & T & E & U). destruct (tets_lab e0 e1 lv T (uo_T3 _ _ _ _ _ _ U)) as (tets & _ & Et).
  exists us, ues, T, E. eexists _, _, _. split; [exact U|]. split.
  - unfold key_prods, prod_edges, plane_tris. cbn [loop_size loop_verts2verts eev2v]. rewrite (uo_edges _ _ _ _ _ _ U), (uo_tris _ _ _ _ _ _ U). cbn [bind]. rewrite (mapM_lab2 e0 e1 lv E (uo_En _ _ _ _ _ _ U)), (mapM_lab2 e0 e1 lv T (uo_Tn _ _ _ _ _ _ U)). cbn [bind]. rewrite Et. cbn [bind]. reflexivity.
  - split; [reflexivity|]. apply worst_tets; [apply (uo_T3 _ _ _ _ _ _ U) | exact Et].
Qed.

Definition adm (m q : Z) : Prop := admissible one quality length max_length l m q.
Definition found (k mesh q : Z) : Prop :=
  (mesh = -1 /\ q = 0 /\ forall m q', 0 <= m < k -> ~ adm m q') \/
  (0 <= mesh < k /\ adm mesh q /\ forall m q', 0 <= m < k -> adm m q' -> q' <= q /\ (q' = q -> mesh <= m)).

Lemma try_mesh_ok m best bq tc ec : 0 <= m < count -> valid MAX_UNIQUE_TRIS (tri_quality one quality l) tc -> valid MAX_UNIQUE_EDGES (edge_len length l) ec -> found m best bq ->
  exists best' bq' tc' ec', try_mesh one quality length max_length l (best, bq, tc, ec) m = Ok (best', bq', tc', ec') /\ valid MAX_UNIQUE_TRIS (tri_quality one quality l) tc' /\ valid MAX_UNIQUE_EDGES (edge_len length l) ec' /\ found (m + 1) best' bq'.
Proof.
  intros Hm Ht He HF. destruct (config_prods m Hm) as (us & ues & T & E & es & fs & rs & U & EK & Ees & EW).
  assert (0 <= bq) as Hbq. { destruct HF as [(_ & -> & _)|(_ & (? & ? & ? & _ & _ & ? & _) & _)]; lia. }
  assert (forall q', adm m q' -> q' = worst one quality rs /\ forall e, In e E -> edgel e <= max_length) as A1.
  { intros q' (es' & fs' & rs' & EK' & Eq & _ & Hlen). rewrite EK in EK'. injection EK' as <- <- <-. split; [exact Eq|]. intros e Hin. apply Hlen. rewrite Ees. apply in_map, Hin. }
  assert (0 < worst one quality rs -> (forall e, In e E -> edgel e <= max_length) -> adm m (worst one quality rs)) as A2.
  { intros P H. exists es, fs, rs. repeat (split; [assumption || reflexivity|]). intros e Hin. rewrite Ees in Hin. apply in_map_iff in Hin as (e' & <- & Hin). apply H, Hin. }
  unfold try_mesh. cbn [loop_size]. destruct (uo_us _ _ _ _ _ _ U) as (nt & ms & E1 & E2 & E3). rewrite E1. cbn [bind]. rewrite E2. cbn [bind]. rewrite E3. cbn [bind].
  destruct (mesh_quality_ok us T) with (acc := one) (c := tc) as (q & tc' & EQ & V' & M).
  { destruct (uo_T _ _ _ _ _ _ U) as (u2v & Eu & EM). apply mapM_ok in EM. pose proof (uo_T3 _ _ _ _ _ _ U) as H3. pose proof (uo_Tn _ _ _ _ _ _ U) as Hl. rewrite forallb_forall in Hl. clear -Eu EM H3 Hl.
    induction EM as [|u t us T H _ IH]; constructor; [apply (tri_quality_ok u2v); auto; [apply H3 | apply Hl]; left; reflexivity | apply IH; intros x Hx; [apply H3 | apply Hl]; right; exact Hx]. }
  { apply (uo_ur _ _ _ _ _ _ U). } { exact Ht. }
  rewrite EQ. cbn [bind]. cbv zeta in M. rewrite <- EW in M.
  assert (forall k, found k best bq -> q <= bq -> k = m -> found (k + 1) best bq) as Keep.
  { intros k HFk Hq ->. destruct HFk as [(-> & -> & H)|(H1 & H2 & H3)]; [left | right].
    - split; [reflexivity|]. split; [reflexivity|]. intros k q' Hk Ha. destruct (Z.eq_dec k m) as [->|N]; [|apply (H k q'); [lia | exact Ha]]. destruct (A1 q' Ha) as [-> _]. destruct Ha as (? & ? & ? & _ & _ & P & _). lia.
    - split; [lia|]. split; [exact H2|]. intros k q' Hk Ha. destruct (Z.eq_dec k m) as [->|N]; [|apply H3; [lia | exact Ha]]. destruct (A1 q' Ha) as [-> _]. destruct Ha as (? & ? & ? & _ & _ & P & _). lia. }
  destruct (Z.gtb_spec q bq) as [G|G].
  - assert (q = worst one quality rs) as Eq by lia. destruct (uo_ues _ _ _ _ _ _ U) as (ne & E4 & E5). rewrite E4. cbn [bind]. rewrite E5. cbn [bind].
    destruct (overshoots_ok ues E) with (c := ec) as (o & ec' & EO & VE & MO).
    { destruct (uo_E _ _ _ _ _ _ U) as (u2v & Eu & EM). apply mapM_ok in EM. pose proof (uo_En _ _ _ _ _ _ U) as Hl. rewrite forallb_forall in Hl. clear -Eu EM Hl.
      induction EM as [|u t us T H _ IH]; constructor; [|apply IH; intros x Hx; apply Hl; right; exact Hx]. unfold edge_len. cbn [loop_size]. rewrite Eu. cbn [bind]. rewrite H. cbn [bind loop_verts2verts]. rewrite (mapM_lab e0 e1 lv t) by (apply Hl; left; reflexivity). reflexivity. }
    { apply (uo_er _ _ _ _ _ _ U). } { exact He. }
    rewrite EO. cbn [bind]. destruct o.
    + exists best, bq, tc', ec'. split; [reflexivity|]. split; [exact V'|]. split; [exact VE|].
      assert (forall q', ~ adm m q') as NA. { intros q' Ha. destruct (A1 q' Ha) as [_ H]. apply MO in H. discriminate. }
      destruct HF as [(-> & -> & H)|(H1 & H2 & H3)]; [left | right].
      * split; [reflexivity|]. split; [reflexivity|]. intros k q' Hk Ha. destruct (Z.eq_dec k m) as [->|N]; [apply (NA q' Ha) | apply (H k q'); [lia | exact Ha]].
      * split; [lia|]. split; [exact H2|]. intros k q' Hk Ha. destruct (Z.eq_dec k m) as [->|N]; [exfalso; apply (NA q' Ha) | apply H3; [lia | exact Ha]].
    + exists m, q, tc', ec'. split; [reflexivity|]. split; [exact V'|]. split; [exact VE|]. right. split; [lia|]. rewrite Eq in *. split; [apply A2; [lia | apply MO; reflexivity]|].
      intros k q' Hk Ha. destruct (Z.eq_dec k m) as [->|N]; [destruct (A1 q' Ha) as [-> _]; lia|]. destruct HF as [(-> & -> & H)|(H1 & H2 & H3)]; [exfalso; apply (H k q'); [lia | exact Ha]|]. destruct (H3 k q') as [H4 _]; [lia | exact Ha | lia].
  - exists best, bq, tc', ec. split; [reflexivity|]. split; [exact V'|]. split; [exact He|]. apply (Keep m HF); [lia | reflexivity].
Qed.

Lemma choose_spec : exists mesh q, choose one quality length max_length l = Ok (mesh, q) /\ found count mesh q.
Proof.
  unfold choose. cbn [loop_size]. rewrite Hcount. cbn [bind].
  assert (0 <= count) as H0. { pose proof Hn as Hn'. apply size_cases in Hn'. cbn [In] in Hn'. destruct Hn' as [E|[E|[E|[E|[E|[]]]]]]; rewrite <- E in Hcount; vm_compute in Hcount; injection Hcount as <-; lia. }
  assert (forall N F, 0 <= N -> valid N F (repeat None (Z.to_nat N))) as VN.
  { intros N F HN. split; [unfold zlen; rewrite repeat_length; lia|]. intros u q E. apply zget_In in E. apply repeat_spec in E. discriminate. }
  assert (forall k, (Z.of_nat k <= count) -> exists mesh q tc ec, forM (Z.of_nat k) (-1, 0, repeat None (Z.to_nat MAX_UNIQUE_TRIS), repeat None (Z.to_nat MAX_UNIQUE_EDGES)) (try_mesh one quality length max_length l) = Ok (mesh, q, tc, ec) /\
    valid MAX_UNIQUE_TRIS (tri_quality one quality l) tc /\ valid MAX_UNIQUE_EDGES (edge_len length l) ec /\ found (Z.of_nat k) mesh q) as K.
  { induction k as [|k IH]; intros Hk.
    - eexists _, _, _, _. split; [reflexivity|]. split; [apply VN; unfold MAX_UNIQUE_TRIS; lia|]. split; [apply VN; unfold MAX_UNIQUE_EDGES; lia|]. left. split; [reflexivity|]. split; [reflexivity|]. lia.
    - destruct IH as (mesh & q & tc & ec & E & V1 & V2 & F); [lia|]. unfold forM in *. replace (Z.of_nat (S k)) with (Z.of_nat k + 1) by lia. rewrite zrange_succ by lia. rewrite foldM_app, E.
      destruct (try_mesh_ok (Z.of_nat k) mesh q tc ec) as (m' & q' & tc' & ec' & E' & V1' & V2' & F'); [lia | assumption..|]. exists m', q', tc', ec'. split; [exact (f_equal (fun r => bind r (fun s => Ok s)) E') | auto]. }
  destruct (K (Z.to_nat count)) as (mesh & q & tc & ec & E & _ & _ & F); [lia|]. rewrite Z2Nat.id in E, F by lia. rewrite E. cbn [bind]. exists mesh, q. auto.
Qed.
End choose.

(** ** as stated *)
Lemma choose_best one quality length max_length e0 e1 lv : 3 <= zlen lv <= 7 ->
  exists count mesh q, zget swap_mesh_counts (zlen lv) = Ok count /\ choose one quality length max_length (mk_loop (zlen lv) [e0; e1] lv) = Ok (mesh, q) /\
  let ok := admissible one quality length max_length (mk_loop (zlen lv) [e0; e1] lv) in
  ((mesh = -1 /\ q = 0 /\ forall m q', 0 <= m < count -> ~ ok m q') \/
   (0 <= mesh < count /\ ok mesh q /\ forall m q', 0 <= m < count -> ok m q' -> q' <= q /\ (q' = q -> mesh <= m))).
Proof.
  intros Hn. destruct (swap_tables_spec (zlen lv) Hn) as (count & Hc & _). destruct (choose_spec one quality length max_length e0 e1 lv Hn count Hc) as (mesh & q & E & F). exists count, mesh, q. split; [exact Hc|]. split; [exact E|]. exact F.
Qed.

(** every configuration can be judged, so "not admissible" means a bad tet or a long edge *)
Lemma choose_judges (quality : list Z -> Z) (one : Z) e0 e1 lv m count : 3 <= zlen lv <= 7 -> zget swap_mesh_counts (zlen lv) = Ok count -> 0 <= m < count -> exists es fs rs, key_prods (mk_loop (zlen lv) [e0; e1] lv) m = Ok (es, fs, rs).
Proof. intros Hn Hc Hm. destruct (config_prods one quality quality e0 e1 lv Hn count Hc m Hm) as (us & ues & T & E & es & fs & rs & _ & EK & _). eauto. Qed.

(** the configuration chosen for an edge is the one whose tets are written, at the reported quality *)
Lemma choose_written one quality length max_length e2et et2t codes ev2v tv2v keys2edges configs quals : 1 <= zlen e2et ->
  (forall edge, In edge keys2edges -> exists e0 e1 l tets loop config q, cavity e2et et2t codes ev2v tv2v edge e0 e1 l tets /\
     find_loop e2et et2t codes ev2v tv2v edge = Ok loop /\ choose one quality length max_length loop = Ok (config, q) /\ config <> -1 /\
     zget configs edge = Ok config /\ zget quals edge = Ok q) ->
  exists k2e k2f k2r oe of or,
  swap3d_keys_to_prods e2et keys2edges = Ok (k2e, k2f, k2r) /\
  swap3d_topology e2et et2t codes ev2v tv2v keys2edges configs (k2e, k2f, k2r) = Ok (oe, of, or) /\
  forall key edge q, zget keys2edges key = Ok edge -> zget quals edge = Ok q ->
    exists lo hi rs, zget k2r key = Ok lo /\ zget k2r (key + 1) = Ok hi /\ ents_between 4 or lo hi = Ok rs /\ worst one quality rs = q /\ 0 < q.
Proof.
  intros Hlen Hk.
  assert (forall edge, In edge keys2edges -> exists e0 e1 l' tets config q count, find_loop e2et et2t codes ev2v tv2v edge = Ok (mk_loop (zlen l') [e0; e1] l') /\ 
    (exists l, cavity e2et et2t codes ev2v tv2v edge e0 e1 l tets /\ zlen l = zlen l') /\ zget configs edge = Ok config /\ zget quals edge = Ok q /\ zget swap_mesh_counts (zlen l') = Ok count /\ 0 <= config < count /\ admissible one quality length max_length (mk_loop (zlen l') [e0; e1] l') config q) as K.
  { intros edge Hi. destruct (Hk edge Hi) as (e0 & e1 & l & tets & loop & config & q & Hcav & EL & EC & N & E1 & E2). destruct (cavity_loop e2et et2t codes ev2v tv2v edge e0 e1 l tets Hcav) as (b & e & l' & _ & _ & _ & EL' & Ll & _ & _).
    assert (3 <= zlen l' <= 7) as Hn by (rewrite Ll; destruct Hcav as (? & ? & K); tauto). rewrite <- Ll in EL'. rewrite EL' in EL. injection EL as <-.
    destruct (choose_best one quality length max_length e0 e1 l' Hn) as (count & mesh & q' & Hcount & EC' & F). rewrite EC' in EC. injection EC as -> ->. destruct F as [(-> & _)|(Hr & Ha & _)]; [congruence|].
    exists e0, e1, l', tets, config, q, count. split; [exact EL'|]. split; [exists l; split; [exact Hcav | congruence]|]. auto. }
  destruct (topo_spec e2et et2t codes ev2v tv2v keys2edges configs Hlen) as (k2e & k2f & k2r & oe & of & or & PR & T1 & T2 & T3 & _ & _ & T4).
  { intros edge Hi. destruct (K edge Hi) as (e0 & e1 & l' & tets & config & q & count & _ & (l & Hcav & Ll) & E1 & _ & Hcount & Hr & _). exists e0, e1, l, tets, config, count. rewrite Ll. auto. }
  exists k2e, k2f, k2r, oe, of, or. split; [exact T1|]. split; [exact T2|]. intros key edge q E Eq.
  assert (exists p, zget PR key = Ok p /\ exists config loop, zget configs edge = Ok config /\ find_loop e2et et2t codes ev2v tv2v edge = Ok loop /\ key_prods loop config = Ok p) as (p & Ep & config & loop & E1 & E2 & E3).
  { apply zget_ok in E as [H0 E]. clear -T3 H0 E. assert (forall (Q : Z -> list (list Z) * list (list Z) * list (list Z) -> Prop) l r, Forall2 Q l r -> forall i x, nth_error l i = Some x -> exists y, nth_error r i = Some y /\ Q x y) as G. { clear. intros Q l r H. induction H as [|a b l r Hab _ IH]; intros [|i] x E; cbn in *; try discriminate; [injection E as <-; eauto | eauto]. }
    destruct (G _ _ _ T3 _ _ E) as (p & Ep & _ & H). exists p. split; [apply zget_ok; auto | exact H]. }
  destruct p as [[es fs] rs]. specialize (T4 key _ Ep). cbn beta iota in T4. destruct T4 as (_ & _ & lo & hi & B1 & B2 & B3). exists lo, hi, rs. do 3 (split; [assumption|]).
  destruct (K edge (zget_In _ _ _ E)) as (e0 & e1 & l' & tets & config' & q' & count & EL & _ & E1' & Eq' & _ & _ & (es' & fs' & rs' & EK & Hw & Hp & _)).
  assert (config' = config) as -> by congruence. assert (q' = q) as -> by congruence. rewrite EL in E2. injection E2 as <-. rewrite E3 in EK. injection EK as <- <- <-. auto.
Qed.
