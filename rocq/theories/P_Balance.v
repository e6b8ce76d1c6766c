(** Proofs about recursive bisection. *)
From Verif Require Import Prelude M_Array M_Par M_Scan M_Sort M_Map M_Linpart M_Bipart S_Bipart M_Dist S_Map S_Dist S_Owners M_Migrate S_Migrate M_Ghost S_Ghost M_Parting S_Parting M_Balance S_Balance.
From Verif Require Import P_Map P_Dist P_Dist2 P_Dist3 P_Dist5 P_Dist6 P_Bipart P_Migrate4.
Local Open Scope Z_scope.

(** ** one deal after the other *)
Definition deal_at (who : list (list (Z * Z))) (p : Z * Z) : Z * Z := match (w <- zget who (fst p) ;; zget w (snd p)) with Ok x => x | _ => p end.
Definition then_deal (who1 who2 : list (list (Z * Z))) : list (list (Z * Z)) := map (map (deal_at who1)) who2.
Lemma then_deal_ok sizes who1 who2 s c t j : dealt sizes who1 -> dealt (map zlen who1) who2 -> (copy_of (then_deal who1 who2) s c t j <-> exists r q, copy_of who2 s c r q /\ copy_of who1 r q t j).
Proof.
  intros D1 D2. split.
  - intros (l & Hl & Hc). apply zget_map_inv in Hl as (l2 & Hl2 & ->). apply zget_map_inv in Hc as ([r q] & Hc & E). exists r, q. assert (copy_of who2 s c r q) as C by (exists l2; auto). split; [exact C|].
    destruct D2 as (_ & R2 & _). destruct (R2 _ _ _ _ C) as (n & Hn & Bq). apply zget_map_inv in Hn as (w & Hw & ->). destruct (zget_in_range w q Bq) as (x & Hx). unfold deal_at in E. cbn [fst snd] in E. rewrite Hw in E. cbn [bind] in E. rewrite Hx in E. subst x. exists w. auto.
  - intros (r & q & (l2 & Hl2 & Hc) & (w & Hw & Hq)). exists (map (deal_at who1) l2). split; [apply zget_map_ok, Hl2|]. rewrite (zget_map_ok _ _ _ _ Hc). unfold deal_at. cbn [fst snd]. rewrite Hw. cbn [bind]. rewrite Hq. reflexivity.
Qed.
Lemma dealt_then sizes who1 who2 : dealt sizes who1 -> dealt (map zlen who1) who2 -> dealt sizes (then_deal who1 who2).
Proof.
  intros D1 D2. pose proof D1 as (L1 & R1 & E1 & U1). pose proof D2 as (L2 & R2 & E2 & U2). split; [|split; [|split]].
  - unfold then_deal. rewrite zlen_map, L2, zlen_map. exact L1.
  - intros s c r q H. apply (then_deal_ok sizes) in H as (r1 & q1 & _ & H); auto. eapply R1; eauto.
  - intros r q n Hn Bq. destruct (E1 r q n Hn Bq) as (s1 & c1 & C1). pose proof C1 as (w & Hw & Hq). destruct (E2 s1 c1 (zlen w)) as (s & c & C2); [apply zget_map_ok, Hw|eapply zget_bounds; eauto|]. exists s, c. apply (then_deal_ok sizes); eauto.
  - intros s c s' c' r q H H'. apply (then_deal_ok sizes) in H as (r1 & q1 & C2 & C1); auto. apply (then_deal_ok sizes) in H' as (r2 & q2 & C2' & C1'); auto. destruct (U1 _ _ _ _ _ _ C1 C1') as [-> ->]. eauto.
Qed.
Lemma delivered_then {A} sizes who1 who2 (x y z : list (list A)) w : dealt sizes who1 -> dealt (map zlen who1) who2 -> delivered who1 x y w -> delivered who2 y z w -> delivered (then_deal who1 who2) x z w.
Proof.
  intros D1 D2 [Ly G1] [Lz G2]. split; [unfold then_deal; rewrite zlen_map; exact Lz|]. intros r l v Hl Hv. apply zget_map_inv in Hl as (l2 & Hl2 & ->). destruct (G2 r l2 v Hl2 Hv) as [Lv Gv]. split; [rewrite zlen_map; exact Lv|].
  intros c s i b Hc Hb. assert (copy_of (then_deal who1 who2) r c s i) as C by (exists (map (deal_at who1) l2); split; [apply zget_map_ok, Hl2|exact Hc]). apply (then_deal_ok sizes) in C as (r1 & q1 & (l2' & E & C2) & (w1 & Hw1 & C1)); auto. assert (l2' = l2) as -> by congruence.
  destruct (zget_in_range y r1) as (y1 & Hy1); [rewrite Ly; eapply zget_bounds; eauto|]. destruct (G1 r1 w1 y1 Hw1 Hy1) as [_ Gy]. pose proof (Gv c r1 q1 y1 C2 Hy1) as S2. pose proof (Gy q1 s i b C1 Hb) as S1. intros k Hk. destruct (S2 k Hk) as (v1 & V1 & V2). destruct (S1 k Hk) as (v2 & V3 & V4). exists v1. split; [exact V1|congruence].
Qed.

(** ** deals side by side *)
Definition beside (n : Z) (a b : list (list (Z * Z))) : list (list (Z * Z)) := a ++ map (map (fun p => (n + fst p, snd p))) b.
Lemma zget_app_either {A} (a b : list A) i x : zget (a ++ b) i = Ok x <-> zget a i = Ok x \/ (zlen a <= i /\ zget b (i - zlen a) = Ok x).
Proof.
  split.
  - intros H. destruct (Z.lt_ge_cases i (zlen a)) as [B|B].
    + rewrite zget_app_l in H by exact B. auto.
    + rewrite zget_app_r in H by exact B. auto.
  - intros [H|[B H]].
    + rewrite zget_app_l; [exact H|]. apply zget_bounds in H. lia.
    + rewrite zget_app_r by exact B. exact H.
Qed.
Lemma beside_ok n a b s c r q : copy_of (beside n a b) s c r q <-> copy_of a s c r q \/ (zlen a <= s /\ copy_of b (s - zlen a) c (r - n) q).
Proof.
  unfold beside, copy_of. split.
  - intros (l & Hl & Hc). apply zget_app_either in Hl as [Hl|[B Hl]]; [left; eauto|]. right. split; [exact B|]. apply zget_map_inv in Hl as (l' & Hl & ->). apply zget_map_inv in Hc as ([r' q'] & Hc & E). cbn in E. injection E as -> ->. exists l'. split; [exact Hl|]. replace (n + r' - n) with r' by lia. exact Hc.
  - intros [(l & Hl & Hc)|(B & l & Hl & Hc)].
    + exists l. split; [apply zget_app_either; auto|exact Hc].
    + exists (map (fun p => (n + fst p, snd p)) l). split; [apply zget_app_either; right; split; [exact B|apply zget_map_ok, Hl]|]. rewrite (zget_map_ok _ _ _ _ Hc). cbn. do 2 f_equal. lia.
Qed.
Lemma dealt_beside sa sb a b : dealt sa a -> dealt sb b -> dealt (sa ++ sb) (beside (zlen sa) a b).
Proof.
  intros (L1 & R1 & E1 & U1) (L2 & R2 & E2 & U2). split; [|split; [|split]].
  - unfold beside. rewrite !zlen_app, zlen_map. lia.
  - intros s c r q H. apply beside_ok in H as [H|[B H]].
    + destruct (R1 _ _ _ _ H) as (n & Hn & Bq). exists n. split; [apply zget_app_either; auto|exact Bq].
    + destruct (R2 _ _ _ _ H) as (n & Hn & Bq). exists n. split; [apply zget_app_either; right; split; [apply zget_bounds in Hn; lia|exact Hn]|exact Bq].
  - intros r q n Hn Bq. apply zget_app_either in Hn as [Hn|[B Hn]].
    + destruct (E1 r q n Hn Bq) as (s & c & C). exists s, c. apply beside_ok. auto.
    + destruct (E2 _ q n Hn Bq) as (s & c & C). exists (s + zlen a), c. apply beside_ok. right. replace (s + zlen a - zlen a) with s by lia. split; [|exact C]. destruct C as (l & Hl & _). apply zget_bounds in Hl. lia.
  - intros s c s' c' r q H H'. apply beside_ok in H as [H|[B H]]; apply beside_ok in H' as [H'|[B' H']].
    + eauto.
    + destruct (R1 _ _ _ _ H) as (n & Hn & _). apply zget_bounds in Hn. destruct (R2 _ _ _ _ H') as (n' & Hn' & _). apply zget_bounds in Hn'. lia.
    + destruct (R1 _ _ _ _ H') as (n & Hn & _). apply zget_bounds in Hn. destruct (R2 _ _ _ _ H) as (n' & Hn' & _). apply zget_bounds in Hn'. lia.
    + destruct (U2 _ _ _ _ _ _ H H') as [E ->]. split; [lia|reflexivity].
Qed.
Lemma delivered_beside {A} sa sb a b (xa xb ya yb : list (list A)) w : dealt sa a -> dealt sb b -> zlen xa = zlen sa -> delivered a xa ya w -> delivered b xb yb w -> delivered (beside (zlen sa) a b) (xa ++ xb) (ya ++ yb) w.
Proof.
  intros (L1 & R1 & _) (L2 & R2 & _) Lx [La Ga] [Lb Gb]. split; [unfold beside; rewrite !zlen_app, zlen_map; lia|].
  intros r l v Hl Hv. unfold beside in Hl. apply zget_app_either in Hl as [Hl|[B Hl]]; apply zget_app_either in Hv as [Hv|[B' Hv]].
  - destruct (Ga r l v Hl Hv) as [Lv Gv]. split; [exact Lv|]. intros c s i x Hc Hx. apply (Gv c s i x Hc). apply zget_app_either in Hx as [Hx|[B _]]; [exact Hx|]. destruct (R1 r c s i) as (n & Hn & _); [exists l; auto|]. apply zget_bounds in Hn. lia.
  - apply zget_bounds in Hl. lia.
  - apply zget_bounds in Hv. lia.
  - apply zget_map_inv in Hl as (l' & Hl & ->). rewrite La in Hv. destruct (Gb _ l' v Hl Hv) as [Lv Gv]. split; [rewrite zlen_map; exact Lv|]. intros c s i x Hc Hx. apply zget_map_inv in Hc as ([s' i'] & Hc & E). cbn in E. injection E as -> ->. apply (Gv c s' i' x Hc).
    destruct (R2 (r - zlen a) c s' i') as (n & Hn & _); [exists l'; auto|]. apply zget_bounds in Hn. apply zget_app_either in Hx as [Hx|[_ Hx]]; [apply zget_bounds in Hx; lia|]. rewrite <- Hx. f_equal. lia.
Qed.

(** ** nothing dealt *)
Definition as_is (sizes : list Z) : list (list (Z * Z)) := map (fun r => match zget sizes r with Ok n => map (fun q => (r, q)) (zrange n) | _ => [] end) (zrange (zlen sizes)).
Lemma as_is_ok sizes s c r q : (forall r n, zget sizes r = Ok n -> 0 <= n) -> (copy_of (as_is sizes) s c r q <-> r = s /\ q = c /\ exists n, zget sizes s = Ok n /\ 0 <= c < n).
Proof.
  intros Pos. unfold as_is, copy_of. split.
  - intros (l & Hl & Hc). apply zget_map_inv in Hl as (s' & Hs & ->). pose proof (zget_bounds _ _ _ Hs) as B. rewrite zlen_zrange in B by apply zlen_nonneg. rewrite zget_zrange in Hs by exact B. injection Hs as <-. destruct (zget sizes s) as [n| |] eqn:En; [|apply zget_bounds in Hc; change (zlen (@nil (Z * Z))) with 0 in Hc; lia..].
    apply zget_map_inv in Hc as (c' & Hc & E). injection E as -> ->. pose proof (zget_bounds _ _ _ Hc) as Bc. rewrite zlen_zrange in Bc by (eapply Pos; eauto). rewrite zget_zrange in Hc by exact Bc. injection Hc as <-. split; [reflexivity|]. split; [reflexivity|]. exists n. auto.
  - intros (-> & -> & n & Hn & Bc). exists (map (fun q => (s, q)) (zrange n)). split; [rewrite zget_map, zget_zrange by (eapply zget_bounds; eauto); cbn; rewrite Hn; reflexivity|]. rewrite zget_map, zget_zrange by exact Bc. reflexivity.
Qed.
Lemma dealt_as_is sizes : (forall r n, zget sizes r = Ok n -> 0 <= n) -> dealt sizes (as_is sizes).
Proof.
  intros Pos. split; [unfold as_is; rewrite zlen_map, zlen_zrange by apply zlen_nonneg; reflexivity|]. split; [|split].
  - intros s c r q H. apply as_is_ok in H as (-> & -> & H); auto.
  - intros r q n Hn Bq. exists r, q. apply as_is_ok; eauto.
  - intros s c s' c' r q H H'. apply as_is_ok in H as (-> & -> & _); auto. apply as_is_ok in H' as (-> & -> & _); auto.
Qed.
Lemma delivered_as_is {A} sizes (x : list (list A)) w : (forall r n, zget sizes r = Ok n -> 0 <= n) -> 0 <= w -> data_per_root sizes x w -> delivered (as_is sizes) x x w.
Proof.
  intros Pos Hw [L G]. split; [unfold as_is; rewrite zlen_map, zlen_zrange by apply zlen_nonneg; lia|]. intros r l y Hl Hy. destruct (zget_in_range sizes r) as (n & Hn); [rewrite <- L; eapply zget_bounds; eauto|]. pose proof (Pos _ _ Hn) as Bn. pose proof (G _ _ _ Hn Hy) as Ly. split.
  - unfold as_is in Hl. apply zget_map_inv in Hl as (s' & Hs & ->). pose proof (zget_bounds _ _ _ Hs) as B. rewrite zlen_zrange in B by apply zlen_nonneg. rewrite zget_zrange in Hs by exact B. injection Hs as <-. rewrite Hn, zlen_map, zlen_zrange by lia. exact Ly.
  - intros c s i x' Hc Hx. assert (copy_of (as_is sizes) r c s i) as C by (exists l; auto). apply as_is_ok in C as (-> & -> & n' & Hn' & Bc); auto. assert (x' = y) as -> by congruence. assert (n' = n) as -> by congruence. intros j Hj. destruct (zget_in_range y (c * w + j) ltac:(nia)) as (v & Hv). eauto.
Qed.
Lemma data_delivered {A} sizes who (x y : list (list A)) w : dealt sizes who -> delivered who x y w -> data_per_root (map zlen who) y w.
Proof. intros _ [L G]. split; [rewrite zlen_map; exact L|]. intros r k v Hk Hv. apply zget_map_inv in Hk as (l & Hl & ->). eapply G; eauto. Qed.

(** ** one bisection *)
Lemma bisect_once inv marks sizes h : inverter inv -> 0 < h -> zlen sizes = 2 * h -> 2 * h <= i32_max + 1 -> data_per_root sizes marks 1 ->
  exists dests lin ds who, bi_partition marks = Ok (dests, lin) /\ make_dist inv (map (map fst) dests) (map (map snd) dests) lin = Ok ds /\ dealt sizes who /\ by_marks h marks who /\
  forall A (data : list (list A)) width, 0 < width -> data_per_root sizes data width -> exists out, exch ds data width = Ok out /\ delivered who data out width.
Proof.
  intros Hinv Hh Ls Fit [Lm Gm]. destruct (bi_partition_spec marks h Hh ltac:(lia)) as (dests & lin & Eb & Ld & Ll & To & From & _ & Inj & _). exists dests, lin.
  assert (forall r d n, zget dests r = Ok d -> zget sizes r = Ok n -> zlen d = n) as Sz.
  { intros r d n Hd Hn. destruct (zget_in_range marks r) as (mk & Hm); [rewrite Lm; eapply zget_bounds; eauto|]. pose proof (Gm _ _ _ Hn Hm) as Lk. pose proof (zlen_nonneg d) as Pd. pose proof (zlen_nonneg mk) as Pk. destruct (Z.lt_trichotomy (zlen d) n) as [B|[B|B]]; [|exact B|].
    - destruct (zget_in_range mk (zlen d) ltac:(lia)) as (x & Hx). destruct (To r (zlen d) x) as (q & j & s & (d' & Hd' & H) & _); [exists mk; auto|]. assert (d' = d) as -> by congruence. apply zget_bounds in H. lia.
    - destruct (zget_in_range d n ltac:(lia)) as (x & Hx). destruct (From r n x) as (y & (mk' & Hm' & H)); [exists d; auto|]. assert (mk' = mk) as -> by congruence. apply zget_bounds in H. lia. }
  set (ranks := map (map fst) dests). set (idxs := map (map snd) dests).
  assert (forall r i q, goes_to ranks r i q <-> exists j, S_Bipart.holds dests r i (q, j)) as Gr.
  { intros r i q. split.
    - intros (a & Ha & Hi). unfold ranks in Ha. apply zget_map_inv in Ha as (d & Hd & ->). apply zget_map_inv in Hi as ([q' j] & Hi & ->). exists j, d. auto.
    - intros (j & d & Hd & Hi). exists (map fst d). split; [apply zget_map_ok, Hd|]. rewrite (zget_map_ok _ _ _ _ Hi). reflexivity. }
  assert (forall r i q j, goes_to ranks r i q -> goes_to idxs r i j -> S_Bipart.holds dests r i (q, j)) as Gi.
  { intros r i q j H1 (b & Hb & Hj). apply Gr in H1 as (j' & d & Hd & Hi). unfold idxs in Hb. rewrite (zget_map_ok _ _ _ _ Hd) in Hb. injection Hb as <-. rewrite (zget_map_ok _ _ _ _ Hi) in Hj. injection Hj as <-. exists d. auto. }
  assert (forall r i q j, S_Bipart.holds dests r i (q, j) -> exists s, zget lin q = Ok s /\ 0 <= j < s) as In_lin.
  { intros r i q j H. destruct (From _ _ _ H) as (m & Hm). destruct (To _ _ _ Hm) as (q' & j' & s & H' & Hs & Bj & _). destruct H as (d & Hd & Hi). destruct H' as (d' & Hd' & Hi'). assert (d' = d) as -> by congruence. assert (q' = q /\ j' = j) as [-> ->] by (split; congruence). eauto. }
  assert (zlen ranks = 2 * h) as Lr by (unfold ranks; rewrite zlen_map; exact Ld).
  assert (ranks_exist ranks) as Re. { intros s i r H. apply Gr in H as (j & H). destruct (In_lin _ _ _ _ H) as (n & Hn & _). apply zget_bounds in Hn. lia. }
  assert (addressed ranks idxs lin) as Ad.
  { split; [unfold idxs; rewrite zlen_map; lia|]. split; [lia|]. split; [|split].
    - intros s a b Ha Hb. unfold ranks in Ha. unfold idxs in Hb. apply zget_map_inv in Ha as (d & Hd & ->). rewrite (zget_map_ok _ _ _ _ Hd) in Hb. injection Hb as <-. rewrite !zlen_map. reflexivity.
    - intros r k Hk. assert (0 <= r < 2 * h) as B by (rewrite <- Ll; eapply zget_bounds; eauto). pose proof (bi_partition_spec marks h Hh ltac:(lia)) as (d1 & l1 & E1 & _ & _ & _ & _ & _ & _ & Bal). assert (l1 = lin) as -> by congruence. specialize (Bal r k Hk). cbv zeta in Bal. assert (0 <= (if r <? h then number (fun m => m =? 0) marks else number (fun m => negb (m =? 0)) marks)) as P by (destruct (r <? h); apply zlen_nonneg). pose proof (Z.div_pos _ h P Hh). lia.
    - intros s i r q H1 H2. eapply In_lin, Gi; eauto. }
  destruct (make_dist_total inv ranks idxs lin Hinv Re ltac:(lia) Ad) as (ds & Eds). destruct (dist_delivers_lemma inv ranks idxs lin Hinv Re ltac:(lia) Ad ds Eds) as (who & [Lw Rw] & Xw & _). exists ds, who. split; [exact Eb|]. split; [exact Eds|]. split; [|split].
  - split; [lia|]. split; [|split].
    + intros s c r q (l & Hl & Hc). destruct (Rw s l Hl) as [_ I]. apply zget_In, I, Gr in Hc as (j & d & Hd & Hq). destruct (zget_in_range sizes r) as (n & Hn); [rewrite Ls, <- Ld; eapply zget_bounds; eauto|]. exists n. split; [exact Hn|]. rewrite <- (Sz _ _ _ Hd Hn). eapply zget_bounds; eauto.
    + intros r q n Hn Bq. destruct (zget_in_range dests r) as (d & Hd); [rewrite Ld, <- Ls; eapply zget_bounds; eauto|]. rewrite <- (Sz _ _ _ Hd Hn) in Bq. destruct (zget_in_range d q Bq) as ([s j] & Hq). assert (goes_to ranks r q s) as G by (apply Gr; exists j, d; auto). pose proof (Re _ _ _ G) as Bs. destruct (zget_in_range who s ltac:(lia)) as (l & Hl). destruct (Rw s l Hl) as [_ I]. apply I, In_zget in G as (c & Hc). exists s, c, l. auto.
    + intros s c s' c' r q (l & Hl & Hc) (l' & Hl' & Hc'). destruct (Rw s l Hl) as [N I]. destruct (Rw s' l' Hl') as [_ I']. pose proof (zget_In _ _ _ Hc) as K. pose proof (zget_In _ _ _ Hc') as K'. apply I in K as (a & Ha & E). apply I' in K' as (a' & Ha' & E'). assert (a' = a) as -> by congruence. assert (s' = s) as -> by congruence. split; [reflexivity|]. assert (l' = l) as -> by congruence. exact (NoDup_zget _ _ _ _ N Hc Hc').
  - intros s c r q mk (l & Hl & Hc) (a & Ha & Hk). destruct (Rw s l Hl) as [_ I]. apply zget_In, I, Gr in Hc as (j & d & Hd & Hq). destruct (To r q mk) as (q' & j' & n & (d' & Hd' & H) & _ & _ & B); [exists a; auto|]. assert (d' = d) as -> by congruence. assert (q' = s) as -> by congruence. exact B.
  - intros A data width Hw [L G]. apply Xw; [exact Hw|]. split; [lia|]. intros s a x Ha Hx. unfold ranks in Ha. apply zget_map_inv in Ha as (d & Hd & ->). rewrite zlen_map. destruct (zget_in_range sizes s) as (n & Hn); [rewrite Ls, <- Ld; eapply zget_bounds; eauto|]. rewrite (Sz _ _ _ Hd Hn). eapply G; eauto.
Qed.

(** ** all of them *)
Lemma per_root_split {A} sizes (x : list (list A)) w h : 0 <= h <= zlen sizes -> data_per_root sizes x w ->
  data_per_root (firstn (Z.to_nat h) sizes) (firstn (Z.to_nat h) x) w /\ data_per_root (skipn (Z.to_nat h) sizes) (skipn (Z.to_nat h) x) w /\ zlen (firstn (Z.to_nat h) sizes) = h /\ zlen (firstn (Z.to_nat h) x) = h /\ zlen (skipn (Z.to_nat h) sizes) = zlen sizes - h.
Proof.
  intros Bh [L G]. assert (forall B (l : list B), zlen l = zlen sizes -> zlen (firstn (Z.to_nat h) l) = h /\ zlen (skipn (Z.to_nat h) l) = zlen l - h) as Z. { intros B l E. unfold zlen in *. rewrite firstn_length, skipn_length. lia. }
  destruct (Z _ sizes eq_refl) as [Z1 Z2]. destruct (Z _ x L) as [Z3 Z4]. split; [|split; [|auto]].
  - split; [lia|]. intros r k v Hk Hv. apply (G r); [rewrite <- (firstn_skipn (Z.to_nat h) sizes)|rewrite <- (firstn_skipn (Z.to_nat h) x)]; apply zget_app_either; auto.
  - split; [lia|]. intros r k v Hk Hv. pose proof (zget_bounds _ _ _ Hk) as B. apply (G (r + h)); [rewrite <- (firstn_skipn (Z.to_nat h) sizes)|rewrite <- (firstn_skipn (Z.to_nat h) x)]; apply zget_app_either; right; rewrite ?Z1, ?Z3; (split; [lia|]); replace (r + h - h) with r by lia; assumption.
Qed.

Section bisect.
Context {T : Type} (inv : Z -> list Z -> Z -> res (list Z * list Z)) (mark : list Z -> list (list T) -> list (list T) -> res (list (list Z))).
Hypothesis Hinv : inverter inv.
Hypothesis Hmark : marks_all mark.

Lemma sizes_checked sizes (coords masses : list (list T)) : data_per_root sizes coords 3 -> data_per_root sizes masses 1 ->
  exists u, mapM (fun r => c <- zget coords r ;; m <- zget masses r ;; check (zlen c =? zlen m * 3)) (zrange (zlen masses)) = Ok u.
Proof using Type.
  intros [Lc Gc] [Lm Gm]. destruct (mapM_rel (fun r => c <- zget coords r ;; m <- zget masses r ;; check (zlen c =? zlen m * 3)) (zrange (zlen masses)) (fun _ _ _ => True)) as (u & E & _); [|eauto].
  intros i r Hr. apply zget_In, in_zrange in Hr. destruct (zget_in_range coords r ltac:(lia)) as (c & Hc). destruct (zget_in_range masses r Hr) as (m & Hm). destruct (zget_in_range sizes r ltac:(lia)) as (n & Hn). rewrite Hc, Hm. cbn [bind]. rewrite (Gc _ _ _ Hn Hc), (Gm _ _ _ Hn Hm). replace (n * 1 * 3) with (n * 3) by lia. rewrite Z.eqb_refl. exists tt. split; [reflexivity|exact I].
Qed.

Lemma bisect_ok : forall k fuel path coords masses ranks idxs sizes, (k <= fuel)%nat -> zlen sizes = 2 ^ Z.of_nat k -> zlen sizes <= i32_max + 1 ->
  data_per_root sizes coords 3 -> data_per_root sizes masses 1 -> data_per_root sizes ranks 1 -> data_per_root sizes idxs 1 ->
  exists coords' masses' ranks' idxs' who, recursively_bisect fuel inv mark path coords masses ranks idxs = Ok (coords', masses', ranks', idxs') /\ dealt sizes who /\
    delivered who coords coords' 3 /\ delivered who masses masses' 1 /\ delivered who ranks ranks' 1 /\ delivered who idxs idxs' 1 /\
    forall k' marks, k = S k' -> mark path coords masses = Ok marks -> by_marks (2 ^ Z.of_nat k') marks who.
Proof using Hinv Hmark.
  induction k as [|k IH]; intros fuel path coords masses ranks idxs sizes Hf Ls Fit Dc Dm Dr Di; pose proof (proj1 Dm) as Lm.
  - change (2 ^ Z.of_nat 0) with 1 in Ls. assert (forall r n, zget sizes r = Ok n -> 0 <= n) as Pos. { intros r n Hn. destruct (zget_in_range masses r) as (m & Hm); [rewrite Lm; eapply zget_bounds; eauto|]. pose proof (proj2 Dm _ _ _ Hn Hm) as E. pose proof (zlen_nonneg m). lia. }
    exists coords, masses, ranks, idxs, (as_is sizes). split; [destruct fuel; cbn [recursively_bisect]; cbv zeta; rewrite Lm, Ls; reflexivity|]. split; [apply dealt_as_is, Pos|]. split; [|split; [|split; [|split; [|intros k' marks K; discriminate]]]]; apply delivered_as_is; auto; lia.
  - destruct fuel as [|fuel]; [lia|]. rewrite Nat2Z.inj_succ, Z.pow_succ_r in Ls by lia. set (h := 2 ^ Z.of_nat k) in *. assert (0 < h) as Hh by (apply Z.pow_pos_nonneg; lia).
    cbn [recursively_bisect]. cbv zeta. destruct (Z.eqb_spec (zlen masses) 1); [lia|]. destruct (sizes_checked sizes coords masses Dc Dm) as (u & ->). cbn [bind]. destruct (Hmark path coords masses sizes Dc Dm) as (marks & Emk & Dk). rewrite Emk. cbn [bind].
    destruct (bisect_once inv marks sizes h Hinv Hh Ls ltac:(lia) Dk) as (dests & lin & ds & who1 & -> & E2 & D1 & Bm & X). cbn [bind]. rewrite E2. cbn [bind].
    destruct (X _ coords 3 ltac:(lia) Dc) as (coords1 & -> & C1). destruct (X _ masses 1 ltac:(lia) Dm) as (masses1 & -> & M1). cbn [bind]. unfold exch_remotes. cbn [fst snd]. destruct (X _ ranks 1 ltac:(lia) Dr) as (ranks1 & -> & R1). destruct (X _ idxs 1 ltac:(lia) Di) as (idxs1 & -> & I1). cbn [bind].
    assert (divide_no_remainder (zlen masses) 2 = Ok h) as -> by (unfold divide_no_remainder; replace (zlen masses) with (h * 2) by lia; rewrite Z.rem_mul, Z.quot_mul by lia; reflexivity). cbn [bind].
    set (sz := map zlen who1) in *. assert (zlen sz = 2 * h) as Lz by (unfold sz; rewrite zlen_map, (proj1 D1); lia).
    pose proof (data_delivered _ _ _ _ _ D1 C1) as Dc1. pose proof (data_delivered _ _ _ _ _ D1 M1) as Dm1. pose proof (data_delivered _ _ _ _ _ D1 R1) as Dr1. pose proof (data_delivered _ _ _ _ _ D1 I1) as Di1. fold sz in Dc1, Dm1, Dr1, Di1.
    destruct (per_root_split sz coords1 3 h ltac:(lia) Dc1) as (Ca & Cb & Sa & Xa & Sb). destruct (per_root_split sz masses1 1 h ltac:(lia) Dm1) as (Ma & Mb & _ & Xm & _). destruct (per_root_split sz ranks1 1 h ltac:(lia) Dr1) as (Ra & Rb & _ & Xr & _). destruct (per_root_split sz idxs1 1 h ltac:(lia) Di1) as (Ia & Ib & _ & Xi & _).
    destruct (IH fuel (0 :: path) _ _ _ _ _ ltac:(lia) Sa ltac:(lia) Ca Ma Ra Ia) as (c0 & m0 & r0 & i0 & wa & -> & Da & A1 & A2 & A3 & A4 & _). cbn [bind].
    destruct (IH fuel (1 :: path) _ _ _ _ (skipn (Z.to_nat h) sz) ltac:(lia) ltac:(unfold h in *; lia) ltac:(lia) Cb Mb Rb Ib) as (c1 & m1 & r1 & i1 & wb & -> & Db & B1 & B2 & B3 & B4 & _). cbn [bind].
    exists (c0 ++ c1), (m0 ++ m1), (r0 ++ r1), (i0 ++ i1), (then_deal who1 (beside h wa wb)). split; [reflexivity|].
    assert (dealt sz (beside h wa wb)) as D2. { pose proof (dealt_beside _ _ _ _ Da Db) as D. rewrite firstn_skipn, Sa in D. exact D. }
    split; [apply dealt_then; assumption|].
    assert (forall A (x y x0 x1 : list (list A)) w, delivered who1 x y w -> zlen (firstn (Z.to_nat h) y) = h -> delivered wa (firstn (Z.to_nat h) y) x0 w -> delivered wb (skipn (Z.to_nat h) y) x1 w -> delivered (then_deal who1 (beside h wa wb)) x (x0 ++ x1) w) as Fin.
    { intros A x y x0 x1 w H1 Hy H2 H3. eapply delivered_then; [exact D1|exact D2|exact H1|]. rewrite <- (firstn_skipn (Z.to_nat h) y). rewrite <- Sa at 1. apply (delivered_beside _ _ _ _ _ _ _ _ _ Da Db); [lia|exact H2|exact H3]. }
    split; [eapply Fin; eauto|]. split; [eapply Fin; eauto|]. split; [eapply Fin; eauto|]. split; [eapply Fin; eauto|].
    intros k' marks' Ek Em. injection Ek as <-. fold h. assert (marks' = marks) as -> by congruence. intros s c r q mk Hc Hmk. apply (then_deal_ok sizes) in Hc as (s1 & c1' & H1 & H2); [|exact D1|exact D2]. pose proof (Bm _ _ _ _ _ H2 Hmk) as B. pose proof (proj1 Da) as La. pose proof (proj1 Db) as Lb.
    apply beside_ok in H1 as [H1|[G1 H1]].
    + destruct H1 as (l & Hl & Hx). pose proof (zget_bounds _ _ _ Hl) as Bs. destruct (proj1 (proj2 Da) s c s1 c1' ltac:(exists l; auto)) as (n9 & Hn & _). apply zget_bounds in Hn. destruct (mk =? 0); lia.
    + destruct (proj1 (proj2 Db) _ _ _ _ H1) as (n9 & Hn & _). apply zget_bounds in Hn. destruct H1 as (l & Hl & _). apply zget_bounds in Hl. destruct (mk =? 0); lia.
Qed.

Lemma bisect_refuses : forall k fuel path coords masses ranks idxs sizes o, (k < fuel)%nat -> zlen sizes = 2 ^ Z.of_nat k * o -> o mod 2 = 1 -> 1 < o -> zlen sizes <= i32_max + 1 ->
  data_per_root sizes coords 3 -> data_per_root sizes masses 1 -> data_per_root sizes ranks 1 -> data_per_root sizes idxs 1 ->
  recursively_bisect fuel inv mark path coords masses ranks idxs = Abort.
Proof using Hinv Hmark.
  induction k as [|k IH]; intros fuel path coords masses ranks idxs sizes o Hf Ls Oo Bo Fit Dc Dm Dr Di; pose proof (proj1 Dm) as Lm; (destruct fuel as [|fuel]; [lia|]).
  - change (2 ^ Z.of_nat 0) with 1 in Ls. cbn [recursively_bisect]. cbv zeta. destruct (Z.eqb_spec (zlen masses) 1); [lia|]. destruct (sizes_checked sizes coords masses Dc Dm) as (u & ->). cbn [bind]. destruct (Hmark path coords masses sizes Dc Dm) as (marks & -> & Dk). cbn [bind]. rewrite bi_partition_odd_spec; [reflexivity|]. rewrite (proj1 Dk), Ls. replace (1 * o) with o by lia. lia.
  - rewrite Nat2Z.inj_succ, Z.pow_succ_r in Ls by lia. set (h := 2 ^ Z.of_nat k * o) in *. assert (0 < 2 ^ Z.of_nat k) as Hp by (apply Z.pow_pos_nonneg; lia). assert (0 < h) as Hh by nia. assert (zlen sizes = 2 * h) as L2 by (unfold h; lia).
    cbn [recursively_bisect]. cbv zeta. destruct (Z.eqb_spec (zlen masses) 1); [lia|]. destruct (sizes_checked sizes coords masses Dc Dm) as (u & ->). cbn [bind]. destruct (Hmark path coords masses sizes Dc Dm) as (marks & -> & Dk). cbn [bind].
    destruct (bisect_once inv marks sizes h Hinv Hh L2 ltac:(lia) Dk) as (dests & lin & ds & who1 & -> & E2 & D1 & Bm & X). cbn [bind]. rewrite E2. cbn [bind].
    destruct (X _ coords 3 ltac:(lia) Dc) as (coords1 & -> & C1). destruct (X _ masses 1 ltac:(lia) Dm) as (masses1 & -> & M1). cbn [bind]. unfold exch_remotes. cbn [fst snd]. destruct (X _ ranks 1 ltac:(lia) Dr) as (ranks1 & -> & R1). destruct (X _ idxs 1 ltac:(lia) Di) as (idxs1 & -> & I1). cbn [bind].
    assert (divide_no_remainder (zlen masses) 2 = Ok h) as -> by (unfold divide_no_remainder; replace (zlen masses) with (h * 2) by lia; rewrite Z.rem_mul, Z.quot_mul by lia; reflexivity). cbn [bind].
    set (sz := map zlen who1) in *. assert (zlen sz = 2 * h) as Lz by (unfold sz; rewrite zlen_map, (proj1 D1); lia).
    pose proof (data_delivered _ _ _ _ _ D1 C1) as Dc1. pose proof (data_delivered _ _ _ _ _ D1 M1) as Dm1. pose proof (data_delivered _ _ _ _ _ D1 R1) as Dr1. pose proof (data_delivered _ _ _ _ _ D1 I1) as Di1. fold sz in Dc1, Dm1, Dr1, Di1.
    destruct (per_root_split sz coords1 3 h ltac:(lia) Dc1) as (Ca & _ & Sa & _). destruct (per_root_split sz masses1 1 h ltac:(lia) Dm1) as (Ma & _). destruct (per_root_split sz ranks1 1 h ltac:(lia) Dr1) as (Ra & _). destruct (per_root_split sz idxs1 1 h ltac:(lia) Di1) as (Ia & _).
    rewrite (IH fuel (0 :: path) _ _ _ _ _ o ltac:(lia) Sa Oo Bo ltac:(lia) Ca Ma Ra Ia). reflexivity.
Qed.
End bisect.
