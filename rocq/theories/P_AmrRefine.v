(** Proofs for C87. *)
From Coq Require Import Lia.
From Verif Require Import Prelude M_Array M_Par M_Scan S_Scan M_Sort M_Map S_Map M_Align M_Graph S_Graph M_Adj S_Adj M_Parents M_Template P_Array P_Map P_Map2 P_Align P_Graph P_Mark M_Modify S_Modify P_Modify P_Modify2 M_AmrTopo S_AmrTopo P_AmrTopo P_AmrTopo2 M_AmrTransfer S_AmrTransfer P_AmrTransfer P_AmrTransfer2 M_AmrRefine S_AmrRefine.
Local Open Scope Z_scope.

Lemma linear_len n off st : 0 <= n -> zlen (linear n off st) = n.
Proof. intros H. unfold linear. rewrite zlen_map, zlen_zrange by exact H. reflexivity. Qed.
Lemma linear_get n off st i : 0 <= i < n -> zget (linear n off st) i = Ok (off + st * i).
Proof. intros H. unfold linear. rewrite zget_map, zget_zrange by exact H. reflexivity. Qed.
Lemma linear_last n off st : 0 <= n -> last_of (linear (n + 1) off st) = Ok (off + st * n).
Proof. intros H. unfold last_of. rewrite linear_len by lia. rewrite linear_get by lia. do 2 f_equal. f_equal. lia. Qed.
Lemma linear_nondec n off st i lo hi : 0 <= st -> zget (linear n off st) i = Ok lo -> zget (linear n off st) (i + 1) = Ok hi -> lo <= hi.
Proof.
  intros Hs A B. destruct (Z.le_gt_cases n 0) as [Hn|Hn]; [exfalso; apply zget_bounds in A; unfold linear in A; rewrite zlen_map in A; unfold zrange in A; replace (Z.to_nat n) with 0%nat in A by lia; unfold zlen in A; cbn in A; lia|].
  pose proof (zget_bounds _ _ _ A) as Ba. pose proof (zget_bounds _ _ _ B) as Bb. rewrite linear_len in Ba, Bb by lia. rewrite linear_get in A, B by lia. inversion A; inversion B. nia.
Qed.

Lemma from11 : zfromto 1 1 = []. Proof. reflexivity. Qed.
Lemma from22 : zfromto 2 2 = []. Proof. reflexivity. Qed.
Lemma from33 : zfromto 3 3 = []. Proof. reflexivity. Qed.
Lemma from12 : zfromto 1 (1 + 1) = [1]. Proof. reflexivity. Qed.
Lemma from13 : zfromto 1 (2 + 1) = [1; 2]. Proof. reflexivity. Qed.
Lemma from14 : zfromto 1 (3 + 1) = [1; 2; 3]. Proof. reflexivity. Qed.
Lemma from23 : zfromto 2 (2 + 1) = [2]. Proof. reflexivity. Qed.
Lemma from24 : zfromto 2 (3 + 1) = [2; 3]. Proof. reflexivity. Qed.
Lemma from34 : zfromto 3 (3 + 1) = [3]. Proof. reflexivity. Qed.
Lemma from12' : zfromto 1 2 = [1]. Proof. reflexivity. Qed.
Lemma from13' : zfromto 1 3 = [1; 2]. Proof. reflexivity. Qed.
Lemma from23' : zfromto 2 3 = [2]. Proof. reflexivity. Qed.
Lemma sorted_lt_NoDup l : Sorted Z.lt l -> NoDup l.
Proof.
  intros H. apply Sorted_StronglySorted in H; [|intros x y z; apply Z.lt_trans]. induction H as [|a l H IH F]; constructor; [|exact IH]. intros I. rewrite Forall_forall in F. specialize (F a I). lia.
Qed.
Section four.
Context {A : Type}.
Variables a b c d x : A.
Lemma set1 : zset [a; b; c; d] 1 x = Ok [a; x; c; d]. Proof. reflexivity. Qed.
Lemma set2 : zset [a; b; c; d] 2 x = Ok [a; b; x; d]. Proof. reflexivity. Qed.
Lemma set3 : zset [a; b; c; d] 3 x = Ok [a; b; c; x]. Proof. reflexivity. Qed.
Lemma get0 : zget [a; b; c; d] 0 = Ok a. Proof. reflexivity. Qed.
Lemma get1 : zget [a; b; c; d] 1 = Ok b. Proof. reflexivity. Qed.
Lemma get2 : zget [a; b; c; d] 2 = Ok c. Proof. reflexivity. Qed.
Lemma get3 : zget [a; b; c; d] 3 = Ok d. Proof. reflexivity. Qed.
End four.

Section prods.
Variable ms : mesh_view.
Variable pd : Z.
Variable mods marks : Z -> list Z.
Hypothesis HC : consistent ms.
Hypothesis HD : 1 <= mesh_dim ms.
Hypothesis HP : 0 <= pd <= mesh_dim ms.
Hypothesis HM : chosen ms mods.

Lemma mods2prods_ok : exists mp, refine_mods2prods (mesh_dim ms) pd mods = Ok mp /\ zlen mp = 4 /\ numbered_from 0 mp (products mods pd (Z.max 1 pd) (mesh_dim ms + 1)) /\
  forall d, at_ mp d = if (Z.max 1 pd <=? d) && (d <=? mesh_dim ms) then Some (linear (zlen (mods d) + 1) (products mods pd (Z.max 1 pd) d) (hypercube_split_degree d pd)) else None.
Proof.
  assert (N : forall d, 0 <= zlen (mods d)) by (intros d; apply zlen_nonneg).
  assert (S : forall d, Z.max 1 pd <= d <= mesh_dim ms -> 0 <= hypercube_split_degree d pd). { intros d Hd. apply degrees0; destruct HC as (HC0 & _); lia. }
  assert (R : forall k x, zlen k = 4 -> (forall d, 0 <= d < 4 -> match zget k d with Ok o => o | _ => None end = x d) -> (forall d, ~ 0 <= d < 4 -> x d = None) -> forall d, at_ k d = x d).
  { intros k x L A B d. destruct (Z_lt_dec d 0) as [Hd|Hd]; [unfold at_; destruct (zget k d) eqn:G; [apply zget_bounds in G; lia|rewrite B by lia; reflexivity..]|]. destruct (Z_lt_dec d 4) as [Hd'|Hd']; [apply A; lia|]. unfold at_. destruct (zget k d) eqn:G; [apply zget_bounds in G; lia|rewrite B by lia; reflexivity..]. }
  assert (D : mesh_dim ms = 1 \/ mesh_dim ms = 2 \/ mesh_dim ms = 3) by (destruct HC as (HC0 & _); lia).
  pose proof (N 1) as N1'. pose proof (N 2) as N2'. pose proof (N 3) as N3'.
  unfold refine_mods2prods. destruct D as [E|[E|E]]; rewrite E in *.
  all: assert (Q : Z.max 1 pd = 1 \/ Z.max 1 pd = 2 \/ Z.max 1 pd = 3) by lia; destruct Q as [Q|[Q|Q]]; rewrite Q in *; try lia.
  all: rewrite ?from12, ?from13, ?from14, ?from23, ?from24, ?from34; cbn [foldM fst snd bind]; repeat (rewrite ?set1, ?set2, ?set3; cbn [foldM fst snd bind]).
  all: eexists; split; [reflexivity|]; split; [reflexivity|]; split.
  all: try (apply R; [reflexivity| |intros d Hd; destruct (Z.leb_spec 1 d), (Z.leb_spec 2 d), (Z.leb_spec 3 d), (Z.leb_spec d 1), (Z.leb_spec d 2), (Z.leb_spec d 3); cbn [andb]; try reflexivity; lia]; intros d Hd; assert (X : d = 0 \/ d = 1 \/ d = 2 \/ d = 3) by lia; destruct X as [->|[->|[->| ->]]]; rewrite ?get0, ?get1, ?get2, ?get3; cbn [Z.leb Z.compare Pos.compare Pos.compare_cont andb]; try reflexivity; unfold products, zsum; rewrite ?from11, ?from22, ?from33, ?from12', ?from13', ?from23', ?from12, ?from13, ?from14, ?from23, ?from24, ?from34; cbn [map fold_right]; do 2 f_equal; lia).
  all: unfold products, zsum; rewrite ?from12, ?from13, ?from14, ?from23, ?from24, ?from34; cbn [map fold_right numbered_from].
  all: repeat first [split; [rewrite linear_get by lia; f_equal; ring|split; [intros i lo hi; apply linear_nondec, S; lia|eexists; split; [apply linear_last, N|]]] | ring].
Qed.

Lemma as_few_at f d : at_ (as_few (mesh_dim ms) f) d = if (0 <=? d) && (d <=? mesh_dim ms) then Some (f d) else None.
Proof.
  destruct HC as (HC0 & _). unfold as_few. change (zrange 4) with [0; 1; 2; 3]. cbn [map]. unfold at_. destruct (Z.leb_spec 0 d) as [H0|H0]; cbn [andb].
  - destruct (Z_lt_dec d 4) as [H4|H4].
    + assert (X : d = 0 \/ d = 1 \/ d = 2 \/ d = 3) by lia. destruct X as [->|[->|[->| ->]]]; rewrite ?get0, ?get1, ?get2, ?get3; reflexivity.
    + destruct (Z.leb_spec d (mesh_dim ms)); [lia|]. destruct (zget _ d) eqn:G; [|reflexivity..]. apply zget_bounds in G. unfold zlen in G. cbn in G. lia.
  - destruct (zget _ d) eqn:G; [|reflexivity..]. apply zget_bounds in G. lia.
Qed.

Lemma refine_numbers_w : exists mp r, refine_mods2prods (mesh_dim ms) pd mods = Ok mp /\ refine_numbers ms pd mods marks = Ok r /\
  good_numbering ms pd (as_few (mesh_dim ms) mods) mp (products mods pd (Z.max 1 pd) (mesh_dim ms + 1)) (fun _ => True) r /\
  (forall d md p, produced_by (as_few (mesh_dim ms) mods) mp d md p <->
     exists m prod, Z.max 1 pd <= d <= mesh_dim ms /\ zget (mods d) m = Ok md /\ 0 <= prod < hypercube_split_degree d pd /\ p = products mods pd (Z.max 1 pd) d + m * hypercube_split_degree d pd + prod) /\
  new_numbers (mesh_dim ms) pd mods (prods2new r) (same2old r) (same2new r) (nents ms pd) (nnew r) /\
  renumbers (same2old r) (same2new r) (old2new r) /\ zlen (old2new r) = nents ms pd /\ NoDup (same2old r) /\
  (forall o, 0 <= o < nents ms pd -> In o (same2old r)) /\
  (forall e, 0 <= e < nnew r -> (exists o, same_as (same2old r) (same2new r) e o) \/ (exists d md p, made_of (mesh_dim ms) pd mods (prods2new r) e d md p)).
Proof.
  destruct mods2prods_ok as (mp & E & L4 & NF & AT). destruct HC as (HC0 & HC1 & _). pose proof (HC1 pd HP) as (HN & _).
  assert (ML : modified_lists ms (as_few (mesh_dim ms) mods) mp (products mods pd (Z.max 1 pd) (mesh_dim ms + 1))).
  { split; [reflexivity|]. split; [exact L4|]. split; [exact NF|]. intros d prods A. rewrite AT in A. destruct (Z.leb_spec (Z.max 1 pd) d), (Z.leb_spec d (mesh_dim ms)); cbn [andb] in A; try discriminate. injection A as <-. split; [lia|]. exists (mods d).
    split; [rewrite as_few_at; destruct (Z.leb_spec 0 d), (Z.leb_spec d (mesh_dim ms)); try lia; reflexivity|]. split; [apply linear_len; pose proof (zlen_nonneg (mods d)); lia|]. destruct (HM d ltac:(lia)) as (M1 & M2). split; [exact M1|exact M2]. }
  destruct (kept_numbering_lemma ms pd (as_few (mesh_dim ms) mods) (as_few (mesh_dim ms) marks) mp (products mods pd (Z.max 1 pd) (mesh_dim ms + 1)) HC HP ML) as (r & Er & G).
  { intros d prods A. rewrite AT in A. destruct (Z.leb_spec (Z.max 1 pd) d); [lia|discriminate]. }
  exists mp, r. split; [exact E|]. split; [unfold refine_numbers; rewrite E; exact Er|]. split; [exact G|]. split.
  { intros d md p. unfold produced_by. split.
    - intros (mds & prods & m & A1 & A2 & A3 & lo & hi & A4 & A5 & A6). rewrite AT in A2. destruct (Z.leb_spec (Z.max 1 pd) d), (Z.leb_spec d (mesh_dim ms)); cbn [andb] in A2; try discriminate. injection A2 as <-. rewrite as_few_at in A1. destruct (Z.leb_spec 0 d), (Z.leb_spec d (mesh_dim ms)); try lia. cbn [andb] in A1. injection A1 as <-.
      pose proof (zget_bounds _ _ _ A3). rewrite linear_get in A4, A5 by lia. inversion A4; inversion A5; subst. exists m, (p - (products mods pd (Z.max 1 pd) d + hypercube_split_degree d pd * m)). split; [lia|]. split; [exact A3|]. split; [lia|ring].
    - intros (m & prod & Hd & A3 & Hp & ->). pose proof (zget_bounds _ _ _ A3) as B. exists (mods d), (linear (zlen (mods d) + 1) (products mods pd (Z.max 1 pd) d) (hypercube_split_degree d pd)), m.
      split; [rewrite as_few_at; destruct (Z.leb_spec 0 d), (Z.leb_spec d (mesh_dim ms)); try lia; reflexivity|]. split; [rewrite AT; destruct (Z.leb_spec (Z.max 1 pd) d), (Z.leb_spec d (mesh_dim ms)); try lia; reflexivity|]. split; [exact A3|].
      eexists _, _. split; [apply linear_get; lia|]. split; [apply linear_get; lia|]. lia. }
  destruct G as (G1 & G2 & G3 & G4 & G5 & G6 & G7 & G8 & _ & _ & _ & G9).
  assert (NR : 0 <= nnew r). { rewrite G9, <- G4. pose proof (zlen_nonneg (same2old r)). pose proof (zlen_nonneg (prods2new r)). lia. }
  assert (NN : new_numbers (mesh_dim ms) pd mods (prods2new r) (same2old r) (same2new r) (nents ms pd) (nnew r)).
  { constructor; [split; [exact HP|lia]|exact G4| | |lia| |exact NR].
    - eapply Permutation_NoDup; [apply Permutation_app_comm|]. eapply Permutation_NoDup; [apply Permutation_sym, G5|apply zrange_NoDup].
    - intros e He. apply in_zrange. eapply Permutation_in; [exact G5|]. eapply Permutation_in; [apply Permutation_app_comm|exact He].
    - intros o Ho. apply G1 in Ho. tauto. }
  split; [exact NN|]. split; [intros e o (s & A & B); exact (G8 s o e B A)|]. split; [exact G7|]. split; [apply sorted_lt_NoDup, G2|]. split; [intros o Ho; apply G1; auto|].
  intros e He. assert (I : In e (same2new r ++ prods2new r)) by (eapply Permutation_in; [apply Permutation_sym, G5|apply in_zrange; exact He]). apply in_app_or in I as [I|I].
  - left. apply In_zget in I as (s & Hs). destruct (zget_in_range (same2old r) s) as (o & Ho); [rewrite <- G3; eapply zget_bounds; exact Hs|]. exists o, s. auto.
  - right. exact (prods_made _ _ _ _ _ _ (nents ms) _ NN e I).
Qed.
End prods.

Lemma split0 d : 1 <= d <= 3 -> hypercube_split_degree d 0 = 1.
Proof. intros H. assert (C : d = 1 \/ d = 2 \/ d = 3) by lia. destruct C as [->|[->| ->]]; reflexivity. Qed.
Lemma range1 {T} b n (l : list T) : 0 <= b -> 0 <= n -> b + n <= zlen l -> exists r, unmap_range b (b + n) l 1 = Ok r /\ zlen r = n /\ forall i, 0 <= i < n -> zget r i = zget l (b + i).
Proof.
  intros Hb Hn Hl. destruct (unmap_range_spec b (b + n) l 1) as (r & E & L & G); [lia|lia|lia|]. exists r. split; [exact E|]. split; [lia|]. intros i Hi. rewrite G by lia. f_equal. lia.
Qed.

(** the middle vertices: [mods2midverts] of dimension [d] gives the product of each refined entity *)
Lemma midverts_w dim mods old2new prods2new : 1 <= dim <= 3 -> (forall v, In v (mods 0) -> 0 <= v < zlen old2new) -> zlen prods2new = products mods 0 1 (dim + 1) ->
  exists mids, refine_midverts dim mods old2new prods2new = Ok mids /\
  (exists l, zget mids 0 = Ok (Some l) /\ zlen l = zlen (mods 0) /\ forall m v, zget (mods 0) m = Ok v -> zget l m = zget old2new v) /\
  (forall d, 1 <= d <= dim -> exists l, zget mids d = Ok (Some l) /\ zlen l = zlen (mods d) /\ forall m, 0 <= m < zlen (mods d) -> zget l m = zget prods2new (products mods 0 1 d + m)).
Proof.
  intros HD HV HL. unfold refine_midverts. destruct (unmap1 (mods 0) old2new HV) as (v & -> & Lv & Gv). cbn [bind].
  pose proof (zlen_nonneg (mods 1)) as N1. pose proof (zlen_nonneg (mods 2)) as N2. pose proof (zlen_nonneg (mods 3)) as N3.
  assert (P2 : products mods 0 1 2 = zlen (mods 1)) by (unfold products, zsum; rewrite from12'; cbn [map fold_right]; rewrite split0 by lia; ring).
  assert (P3 : products mods 0 1 3 = zlen (mods 1) + zlen (mods 2)) by (unfold products, zsum; rewrite from13'; cbn [map fold_right]; rewrite !split0 by lia; ring).
  assert (P4 : products mods 0 1 4 = zlen (mods 1) + zlen (mods 2) + zlen (mods 3)) by (unfold products, zsum; change (zfromto 1 4) with [1; 2; 3]; cbn [map fold_right]; rewrite !split0 by lia; ring).
  assert (D : dim = 1 \/ dim = 2 \/ dim = 3) by lia. destruct D as [->|[->| ->]]; cbn [Z.add Pos.add Pos.succ] in HL.
  all: rewrite ?from12, ?from13, ?from14; cbn [foldM fst snd]; rewrite !split0 by lia; unfold check; cbn [Z.eqb Pos.eqb bind].
  - destruct (range1 0 (zlen (mods 1)) prods2new) as (r1 & -> & L1 & G1); [lia..|]. cbn [bind]. rewrite set1. cbn [bind fst snd]. eexists. split; [reflexivity|]. split; [exists v; split; [reflexivity|split; [exact Lv|exact Gv]]|].
    intros d Hd. assert (d = 1) by lia. subst d. exists r1. split; [reflexivity|]. split; [exact L1|]. intros m Hm. rewrite G1 by exact Hm. reflexivity.
  - destruct (range1 0 (zlen (mods 1)) prods2new) as (r1 & -> & L1 & G1); [lia..|]. cbn [bind]. rewrite set1. cbn [bind fst snd].
    destruct (range1 (0 + zlen (mods 1)) (zlen (mods 2)) prods2new) as (r2 & -> & L2 & G2); [lia..|]. cbn [bind]. rewrite set2. cbn [bind fst snd]. eexists. split; [reflexivity|]. split; [exists v; split; [reflexivity|split; [exact Lv|exact Gv]]|].
    intros d Hd. assert (X : d = 1 \/ d = 2) by lia. destruct X as [->| ->]; [exists r1|exists r2]; (split; [reflexivity|]); (split; [assumption|]); intros m Hm; [rewrite G1 by exact Hm|rewrite G2, P2 by exact Hm]; reflexivity.
  - destruct (range1 0 (zlen (mods 1)) prods2new) as (r1 & -> & L1 & G1); [lia..|]. cbn [bind]. rewrite set1. cbn [bind fst snd].
    destruct (range1 (0 + zlen (mods 1)) (zlen (mods 2)) prods2new) as (r2 & -> & L2 & G2); [lia..|]. cbn [bind]. rewrite set2. cbn [bind fst snd].
    destruct (range1 (0 + zlen (mods 1) + zlen (mods 2)) (zlen (mods 3)) prods2new) as (r3 & -> & L3 & G3); [lia..|]. cbn [bind]. rewrite set3. cbn [bind fst snd]. eexists. split; [reflexivity|]. split; [exists v; split; [reflexivity|split; [exact Lv|exact Gv]]|].
    intros d Hd. assert (X : d = 1 \/ d = 2 \/ d = 3) by lia. destruct X as [->|[->| ->]]; [exists r1|exists r2|exists r3]; (split; [reflexivity|]); (split; [assumption|]); intros m Hm; [rewrite G1 by exact Hm|rewrite G2, P2 by exact Hm|rewrite G3, P3 by exact Hm]; reflexivity.
Qed.
