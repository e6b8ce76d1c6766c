(** Edge splits: topology. *)
From Coq Require Import Permutation.
From Verif Require Import Prelude M_Array M_Scan M_Map M_Align M_Template M_Graph M_Adj M_Swap3d M_Refine S_Map S_Scan S_Graph S_Adj S_Swap3d S_Swap2d S_Coarsen S_Refine P_Array P_Scan P_Map P_Map2 P_Fan P_Mark P_Graph P_Adj P_SwapTopo P_Dead P_Coarsen X_Coarsen.
Local Open Scope Z_scope.

(** ** rows written key by key *)
Lemma write_keys k L (body : list (option Z) -> Z -> res (list (option Z))) : (forall ts, In ts L -> forall t, In t ts -> zlen t = k) ->
  (forall j rows out, nth_error L j = Some rows -> body out (Z.of_nat j) = (p <- zget (offset_scan (map zlen L)) (Z.of_nat j) ;; write_block out (p * k) (concat rows))) ->
  forM (zlen L) (repeat None (Z.to_nat (zlen (flat k L)))) body = Ok (map Some (flat k L)).
Proof.
  intros HLk HB. assert (forall j, (j <= length L)%nat -> forM (Z.of_nat j) (repeat None (Z.to_nat (zlen (flat k L)))) body = Ok (map Some (flat k (firstn j L)) ++ repeat None (length (flat k (skipn j L))))) as K.
  { induction j as [|j IH]; intros Hj; [cbn [firstn skipn flat map concat app]; unfold zlen; rewrite Nat2Z.id; reflexivity|].
    unfold forM in *. replace (Z.of_nat (S j)) with (Z.of_nat j + 1) by lia. rewrite zrange_succ by lia. rewrite foldM_app, IH by lia. cbn [bind foldM].
    destruct (nth_error L j) as [rows|] eqn:Er; [|apply nth_error_None in Er; lia]. rewrite (HB j rows _ Er). destruct (block_step k L j rows [] HLk Er) as (p & Ep & Wb). rewrite Ep. cbn [bind]. rewrite Wb. reflexivity. }
  specialize (K (length L) (Nat.le_refl _)). unfold zlen at 1. rewrite K, firstn_all, skipn_all. cbn [flat map concat length repeat]. rewrite app_nil_r. reflexivity.
Qed.

(** blocks of rows written through a running pointer *)
Lemma ptr_blocks {X} k (h : X -> res (list (list Z))) (G : list (option Z) * Z -> X -> res (list (option Z) * Z)) : forall xs RS, mapM h xs = Ok RS ->
  (forall x rs, In x xs -> h x = Ok rs -> (forall r, In r rs -> zlen r = k) /\ forall s, G s x = (out <- write_block (fst s) (snd s * k) (concat rs) ;; Ok (out, snd s + zlen rs))) ->
  forall out p, foldM G xs (out, p) = (out' <- write_block out (p * k) (concat (concat RS)) ;; Ok (out', p + zlen (concat RS))).
Proof.
  induction xs as [|x xs IH]; intros RS E H out p; cbn [mapM] in E.
  - injection E as <-. cbn. rewrite Z.add_0_r. reflexivity.
  - apply bind_ok in E as (rs & Ers & E). apply bind_ok in E as (RS' & ERS & E). injection E as <-. cbn [foldM]. destruct (H x rs (or_introl eq_refl) Ers) as [Hk HG]. rewrite HG. cbn [fst snd concat]. rewrite concat_app, write_block_app.
    destruct (write_block out (p * k) (concat rs)) as [d| |]; cbn [bind]; try reflexivity. rewrite (IH RS' ERS) by (intros; apply H; [right; assumption | assumption]). rewrite (zlen_concat k) by exact Hk. rewrite zlen_app, Z.add_assoc. f_equal. f_equal. ring.
Qed.
Lemma ptr_rows {X} k (g : X -> res (list Z)) (G : list (option Z) * Z -> X -> res (list (option Z) * Z)) : forall xs RS, mapM g xs = Ok RS -> (forall r, In r RS -> zlen r = k) ->
  (forall s x, G s x = (row <- g x ;; out <- write_block (fst s) (snd s * k) row ;; Ok (out, snd s + 1))) ->
  forall out p, foldM G xs (out, p) = (out' <- write_block out (p * k) (concat RS) ;; Ok (out', p + zlen RS)).
Proof.
  intros xs RS E Hk HG out p. rewrite (ptr_blocks k (fun x => row <- g x ;; Ok [row]) G xs (map (fun r => [r]) RS)).
  - assert (concat (map (fun r : list Z => [r]) RS) = RS) as -> by (clear; induction RS as [|r RS IH]; [reflexivity | cbn; rewrite IH; reflexivity]). reflexivity.
  - apply mapM_ok in E. apply mapM_ok. clear Hk. induction E as [|x r xs RS H _ IH]; [constructor|]. cbn [map]. constructor; [rewrite H; reflexivity | exact IH].
  - intros x rs Hx Ers. apply bind_ok in Ers as (row & Er & Es). injection Es as <-. split.
    + intros r [<-|[]]. destruct (mapM_in _ _ _ _ E Hx) as (y & Ey & Hy). assert (y = row) as -> by congruence. exact (Hk row Hy).
    + intros s. rewrite HG, Er. cbn [bind concat]. rewrite app_nil_r. reflexivity.
Qed.

(** the offsets computed for the domains of the keys *)
Lemma key_domains_ok e2d keys2edges : wf_adj e2d -> (forall e, In e keys2edges -> 0 <= e < zlen (adj_a2ab e2d) - 1) ->
  exists D, key_domains e2d keys2edges = Ok (offset_scan D) /\ zlen D = zlen keys2edges /\
  forall key e lo hi, zget keys2edges key = Ok e -> zget (adj_a2ab e2d) e = Ok lo -> zget (adj_a2ab e2d) (e + 1) = Ok hi -> zget D key = Ok (hi - lo).
Proof.
  intros (W1 & _) Hk. pose proof (zget_bounds _ _ _ (proj1 W1)) as B. unfold key_domains. destruct (get_degrees_spec (adj_a2ab e2d)) as (d & Ed & Ld & Gd); [lia|]. rewrite Ed. cbn [bind].
  destruct (mapM_total (zget d) keys2edges) as (D & ED). { intros e He. apply zget_in_range. rewrite Ld. apply Hk, He. }
  rewrite (unmap1 keys2edges d D); [| intros e He; rewrite Ld; apply Hk, He | exact ED]. cbn [bind]. exists D. split; [reflexivity|]. split; [unfold zlen; rewrite (mapM_length _ _ _ ED); reflexivity|].
  intros key e lo hi Ek El Eh. apply zget_ok in Ek as [Bk Nk]. destruct (nth_error_mapM _ _ _ _ _ ED Nk) as (y & Ny & Ey). rewrite (Gd e lo hi El Eh) in Ey. apply zget_ok. split; [exact Bk | congruence].
Qed.

Lemma scan_scaled c (L : list Z) : offset_scan (map (fun x => x * c) L) = map (fun x => x * c) (offset_scan L).
Proof.
  apply list_eq_zget; [rewrite offset_scan_length, !zlen_map, offset_scan_length; reflexivity|]. intros i Hi. rewrite offset_scan_length, zlen_map in Hi.
  rewrite zget_map, !offset_scan_get by (rewrite ?zlen_map; lia). cbn [bind]. f_equal. rewrite firstn_map. generalize (firstn (Z.to_nat i) L). intros l. induction l as [|x l IH]; [reflexivity|]. cbn [map]. change (zsum (x * c :: map (fun x => x * c) l)) with (x * c + zsum (map (fun x => x * c) l)). change (zsum (x :: l)) with (x + zsum l). rewrite IH. ring.
Qed.

Lemma zlen_concat_const {A} c (RS : list (list A)) : (forall rs, In rs RS -> zlen rs = c) -> zlen (concat RS) = zlen RS * c.
Proof.
  induction RS as [|t ts IH]; intros H; [reflexivity|]. cbn [concat]. rewrite zlen_app, zlen_cons, IH by (intros; apply H; right; assumption). rewrite (H t) by (left; reflexivity). ring.
Qed.

Lemma dom_rows k mult e2d codes keys2edges mids (f : Z -> Z -> Z -> res (list (list Z))) :
  wf_adj e2d -> adj_codes e2d = Some codes -> (forall e, In e keys2edges -> 0 <= e < zlen (adj_a2ab e2d) - 1) -> zlen mids = zlen keys2edges ->
  (forall key e m p dom code, zget keys2edges key = Ok e -> zget mids key = Ok m -> in_group (adj_a2ab e2d) e p -> zget (adj_ab2b e2d) p = Ok dom -> zget codes p = Ok code ->
     exists rs, f m dom code = Ok rs /\ zlen rs = mult /\ forall r, In r rs -> zlen r = k) ->
  exists D L, key_domains e2d keys2edges = Ok (offset_scan D) /\ zlen L = zlen keys2edges /\ offset_scan (map zlen L) = map (fun x => x * mult) (offset_scan D) /\
  (forall ts, In ts L -> forall t, In t ts -> zlen t = k) /\
  forall key e m lo hi, zget keys2edges key = Ok e -> zget mids key = Ok m -> zget (adj_a2ab e2d) e = Ok lo -> zget (adj_a2ab e2d) (e + 1) = Ok hi ->
  exists RS, nth_error L (Z.to_nat key) = Some (concat RS) /\ mapM (fun p => dom <- zget (adj_ab2b e2d) p ;; code <- zget codes p ;; f m dom code) (zfromto lo hi) = Ok RS /\
  forall p rs dom code, In p (zfromto lo hi) -> zget (adj_ab2b e2d) p = Ok dom -> zget codes p = Ok code -> f m dom code = Ok rs -> zlen rs = mult /\ forall r, In r rs -> zlen r = k.
Proof.
  intros W Ec Hk Lm Hf. destruct (key_domains_ok e2d keys2edges W Hk) as (D & ED & LD & HD). pose proof W as (W1 & W2 & W3). specialize (W3 codes Ec).
  set (g := fun m p => dom <- zget (adj_ab2b e2d) p ;; code <- zget codes p ;; f m dom code).
  set (G := fun key => e <- zget keys2edges key ;; m <- zget mids key ;; lo <- zget (adj_a2ab e2d) e ;; hi <- zget (adj_a2ab e2d) (e + 1) ;; RS <- mapM (g m) (zfromto lo hi) ;; Ok RS).
  assert (forall key, 0 <= key < zlen keys2edges -> exists e m lo hi RS, zget keys2edges key = Ok e /\ zget mids key = Ok m /\ zget (adj_a2ab e2d) e = Ok lo /\ zget (adj_a2ab e2d) (e + 1) = Ok hi /\ lo <= hi /\
     mapM (g m) (zfromto lo hi) = Ok RS /\ zlen RS = hi - lo /\ (forall p, In p (zfromto lo hi) -> exists dom code rs, zget (adj_ab2b e2d) p = Ok dom /\ zget codes p = Ok code /\ f m dom code = Ok rs /\ zlen rs = mult /\ forall r, In r rs -> zlen r = k) /\
     (forall rs, In rs RS -> zlen rs = mult /\ forall r, In r rs -> zlen r = k)) as HG.
  { intros key Hkey. destruct (zget_in_range keys2edges key Hkey) as (e & Ee). destruct (zget_in_range mids key) as (m & Em); [lia|]. pose proof (Hk e (zget_In _ _ _ Ee)) as Be. destruct (zget_in_range (adj_a2ab e2d) e) as (lo & El); [lia|]. destruct (zget_in_range (adj_a2ab e2d) (e + 1)) as (hi & Eh); [lia|].
    pose proof (proj2 W1 e lo hi El Eh) as Hlh.
    assert (forall p, In p (zfromto lo hi) -> exists dom code rs, zget (adj_ab2b e2d) p = Ok dom /\ zget codes p = Ok code /\ f m dom code = Ok rs /\ zlen rs = mult /\ forall r, In r rs -> zlen r = k) as Hp.
    { intros p Hp. apply in_zfromto in Hp. assert (in_group (adj_a2ab e2d) e p) as Hgr by (exists lo, hi; auto). destruct (in_group_range _ _ e p W1 W2 Hgr) as [Bp _]. destruct (zget_in_range (adj_ab2b e2d) p Bp) as (dom & Edom). destruct (zget_in_range codes p) as (code & Ecode); [lia|].
      destruct (Hf key e m p dom code Ee Em Hgr Edom Ecode) as (rs & R1 & R2 & R3). exists dom, code, rs. auto 6. }
    destruct (mapM_total (g m) (zfromto lo hi)) as (RS & ERS). { intros p Hpi. destruct (Hp p Hpi) as (dom & code & rs & E1 & E2 & E3 & _). exists rs. unfold g. rewrite E1. cbn [bind]. rewrite E2. cbn [bind]. exact E3. }
    exists e, m, lo, hi, RS. repeat (split; [assumption|]). split; [unfold zlen; rewrite (mapM_length _ _ _ ERS); unfold zfromto; rewrite map_length, zrange_length; lia|]. split; [exact Hp|].
    intros rs Hrs. destruct (mapM_in_inv _ _ _ _ ERS Hrs) as (p & Ep & Hpi). destruct (Hp p Hpi) as (dom & code & rs' & E1 & E2 & E3 & E4). unfold g in Ep. rewrite E1 in Ep. cbn [bind] in Ep. rewrite E2 in Ep. cbn [bind] in Ep. assert (rs' = rs) as -> by congruence. exact E4. }
  destruct (mapM_total G (zrange (zlen keys2edges))) as (LL & ELL). { intros key Hkey. apply in_zrange in Hkey. destruct (HG key Hkey) as (e & m & lo & hi & RS & E1 & E2 & E3 & E4 & _ & E5 & _). exists RS. unfold G. rewrite E1. cbn [bind]. rewrite E2. cbn [bind]. rewrite E3. cbn [bind]. rewrite E4. cbn [bind]. rewrite E5. reflexivity. }
  assert (forall key, 0 <= key < zlen keys2edges -> exists e m lo hi RS, zget keys2edges key = Ok e /\ zget mids key = Ok m /\ zget (adj_a2ab e2d) e = Ok lo /\ zget (adj_a2ab e2d) (e + 1) = Ok hi /\ mapM (g m) (zfromto lo hi) = Ok RS /\ nth_error LL (Z.to_nat key) = Some RS /\ zlen RS = hi - lo /\
     (forall p, In p (zfromto lo hi) -> exists dom code rs, zget (adj_ab2b e2d) p = Ok dom /\ zget codes p = Ok code /\ f m dom code = Ok rs /\ zlen rs = mult /\ forall r, In r rs -> zlen r = k) /\
     (forall rs, In rs RS -> zlen rs = mult /\ forall r, In r rs -> zlen r = k)) as HL.
  { intros key Hkey. destruct (HG key Hkey) as (e & m & lo & hi & RS & E1 & E2 & E3 & E4 & _ & E5 & E6 & E7 & E8). exists e, m, lo, hi, RS. repeat (split; [assumption|]). split; [|auto].
    assert (nth_error (zrange (zlen keys2edges)) (Z.to_nat key) = Some key) as Ej. { rewrite zrange_nth by lia. f_equal. lia. } destruct (nth_error_mapM _ _ _ _ _ ELL Ej) as (y & Ny & Gy). unfold G in Gy. rewrite E1 in Gy. cbn [bind] in Gy. rewrite E2 in Gy. cbn [bind] in Gy. rewrite E3 in Gy. cbn [bind] in Gy. rewrite E4 in Gy. cbn [bind] in Gy. rewrite E5 in Gy. cbn [bind] in Gy. congruence. }
  assert (zlen LL = zlen keys2edges) as LLL. { unfold zlen. rewrite (mapM_length _ _ _ ELL), zrange_length. unfold zlen. lia. }
  exists D, (map (@concat (list Z)) LL). split; [exact ED|]. split; [rewrite zlen_map; exact LLL|]. split; [|split].
  - rewrite <- scan_scaled. f_equal. apply list_eq_zget; [rewrite !zlen_map; lia|]. intros key Hkey. rewrite !zlen_map in Hkey. destruct (HL key) as (e & m & lo & hi & RS & E1 & E2 & E3 & E4 & E5 & E6 & E7 & _ & E8); [lia|].
    rewrite !zget_map. assert (zget LL key = Ok RS) as -> by (apply zget_ok; split; [lia | exact E6]). rewrite (HD key e lo hi E1 E3 E4). cbn [bind]. f_equal. rewrite (zlen_concat_const mult) by (intros rs Hrs; apply (E8 rs Hrs)). rewrite E7. reflexivity.
  - intros ts Hts t Ht. apply in_map_iff in Hts as (RS & <- & HRS). apply In_nth_error in HRS as (j & Ej). assert (j < length LL)%nat as Hj by (apply nth_error_Some; congruence). destruct (HL (Z.of_nat j)) as (e & m & lo & hi & RS' & _ & _ & _ & _ & _ & E6 & _ & _ & E8); [unfold zlen in *; lia|]. rewrite Nat2Z.id in E6. assert (RS' = RS) as -> by congruence.
    apply in_concat in Ht as (rs & Hrs & Ht). exact (proj2 (E8 rs Hrs) t Ht).
  - intros key e m lo hi Ee Em El Eh. destruct (HL key (zget_bounds _ _ _ Ee)) as (e' & m' & lo' & hi' & RS & E1 & E2 & E3 & E4 & E5 & E6 & _ & E7 & _). assert (e' = e) as -> by congruence. assert (m' = m) as -> by congruence. assert (lo' = lo) as -> by congruence. assert (hi' = hi) as -> by congruence.
    exists RS. split; [rewrite nth_error_map, E6; reflexivity|]. split; [exact E5|]. intros p rs dom code Hp Ed Eco Ef. destruct (E7 p Hp) as (dom' & code' & rs' & F1 & F2 & F3 & F4). assert (dom' = dom) as -> by congruence. assert (code' = code) as -> by congruence. assert (rs' = rs) as -> by congruence. exact F4.
Qed.

Lemma foldM_zrange2 {S} (F : S -> Z -> res S) s : foldM F (zrange 2) s = (s1 <- F s 0 ;; F s1 1).
Proof. change (zrange 2) with [0; 1]. cbn [foldM]. destruct (F s 0); cbn [bind]; [destruct (F a 1)|..]; reflexivity. Qed.

(** ** pairs and cuts over all keys *)
Lemma pairs_flat dim ev2v dv2v e2d codes keys2edges mids old2new : 2 <= dim ->
  wf_adj e2d -> adj_codes e2d = Some codes -> (forall e, In e keys2edges -> 0 <= e < zlen (adj_a2ab e2d) - 1) -> zlen mids = zlen keys2edges ->
  (forall e m p dom code eev, In e keys2edges -> In m mids -> in_group (adj_a2ab e2d) e p -> zget (adj_ab2b e2d) p = Ok dom -> zget codes p = Ok code -> eev = 0 \/ eev = 1 ->
     exists r, pair_row dim dv2v old2new dom (code_which_down code) (code_rotation code) m eev = Ok r /\ zlen r = dim + 1) ->
  exists L, refine_domains_to_pairs dim ev2v dv2v e2d keys2edges mids old2new = Ok (offset_scan (map zlen L), flat (dim + 1) L) /\ zlen L = zlen keys2edges /\
  (forall ts, In ts L -> forall t, In t ts -> zlen t = dim + 1) /\
  forall key e m lo hi, zget keys2edges key = Ok e -> zget mids key = Ok m -> zget (adj_a2ab e2d) e = Ok lo -> zget (adj_a2ab e2d) (e + 1) = Ok hi ->
  exists ps, nth_error L (Z.to_nat key) = Some (unpair ps) /\
  mapM (fun p => dom <- zget (adj_ab2b e2d) p ;; code <- zget codes p ;;
          r0 <- pair_row dim dv2v old2new dom (code_which_down code) (code_rotation code) m 0 ;; r1 <- pair_row dim dv2v old2new dom (code_which_down code) (code_rotation code) m 1 ;; Ok (r0, r1)) (zfromto lo hi) = Ok ps.
Proof.
  intros Hdim W Ec Hk Lm Hp.
  set (f := fun m dom code => r0 <- pair_row dim dv2v old2new dom (code_which_down code) (code_rotation code) m 0 ;; r1 <- pair_row dim dv2v old2new dom (code_which_down code) (code_rotation code) m 1 ;; Ok [r0; r1]).
  destruct (dom_rows (dim + 1) 2 e2d codes keys2edges mids f W Ec Hk Lm) as (D & L & ED & LL & EO & HW & HR).
  { intros key e m p dom code Ee Em Hg Ed Eco. assert (In e keys2edges) as Ie by (eapply zget_In, Ee). assert (In m mids) as Im by (eapply zget_In, Em). destruct (Hp e m p dom code 0 Ie Im Hg Ed Eco) as (r0 & E0 & L0); [auto|]. destruct (Hp e m p dom code 1 Ie Im Hg Ed Eco) as (r1 & E1 & L1); [auto|].
    exists [r0; r1]. unfold f. rewrite E0. cbn [bind]. rewrite E1. split; [reflexivity|]. split; [reflexivity|]. intros r [<-|[<-|[]]]; assumption. }
  exists L. split; [|split; [exact LL | split; [exact HW|]]].
  - unfold refine_domains_to_pairs. destruct (Z.ltb_spec 0 dim); [|lia]. cbn [negb]. destruct (Z.eqb_spec dim 1); [lia|]. rewrite Ec. cbn [bind]. rewrite ED. cbn [bind]. rewrite <- EO.
    unfold last_of. assert (zget (offset_scan D) (zlen (offset_scan D) - 1) = Ok (zsum D)) as -> by (pose proof (offset_scan_last D) as HH; unfold last_of in HH; exact HH). cbn [bind].
    assert (zsum D * 2 * (dim + 1) = zlen (flat (dim + 1) L)) as ->.
    { rewrite zlen_flat by exact HW. f_equal. pose proof (offset_scan_last (map zlen L)) as HH. unfold last_of in HH. rewrite EO in HH. rewrite zlen_map, zget_map in HH. pose proof (offset_scan_last D) as HH2. unfold last_of in HH2. rewrite HH2 in HH. cbn [bind] in HH. congruence. }
    rewrite blank_ok by apply zlen_nonneg. cbn [bind]. rewrite <- LL. rewrite (write_keys (dim + 1) L) ; [|exact HW|].
    + cbn [bind]. rewrite (proj2 (freeze_ok _ (flat (dim + 1) L)) eq_refl). reflexivity.
    + intros j rows out Ej. assert (j < length L)%nat as Hj by (apply nth_error_Some; congruence). destruct (zget_in_range keys2edges (Z.of_nat j)) as (e & Ee); [unfold zlen in *; lia|]. destruct (zget_in_range mids (Z.of_nat j)) as (m & Em); [unfold zlen in *; lia|]. pose proof (Hk e (zget_In _ _ _ Ee)) as Be.
      destruct (zget_in_range (adj_a2ab e2d) e) as (lo & El); [lia|]. destruct (zget_in_range (adj_a2ab e2d) (e + 1)) as (hi & Eh); [lia|]. destruct (HR (Z.of_nat j) e m lo hi Ee Em El Eh) as (RS & E1 & E2 & E3). rewrite Nat2Z.id in E1. assert (rows = concat RS) as -> by congruence.
      rewrite Ee. cbn [bind]. rewrite Em. cbn [bind]. destruct (zget (offset_scan (map zlen L)) (Z.of_nat j)) as [p| |]; cbn [bind]; try reflexivity. rewrite El. cbn [bind]. rewrite Eh. cbn [bind].
      rewrite (ptr_blocks (dim + 1) _ _ (zfromto lo hi) RS E2).
      * destruct (write_block out (p * (dim + 1)) (concat (concat RS))); reflexivity.
      * intros q rs Hq Eq. apply bind_ok in Eq as (dom & Edom & Eq). apply bind_ok in Eq as (code & Ecode & Eq). destruct (E3 q rs dom code Hq Edom Ecode Eq) as [F1 F2]. split; [exact F2|]. intros s. rewrite Edom. cbn [bind]. rewrite Ecode. cbn [bind]. rewrite foldM_zrange2. unfold f in Eq. apply bind_ok in Eq as (r0 & R0 & Eq). apply bind_ok in Eq as (r1 & R1 & Eq). injection Eq as <-. rewrite R0. cbn [bind concat]. rewrite write_block_app.
        destruct (write_block (fst s) (snd s * (dim + 1)) r0) as [d| |]; cbn [bind fst snd]; try reflexivity. rewrite R1. cbn [bind]. rewrite app_nil_r. rewrite (F2 r0) by (left; reflexivity). replace (snd s * (dim + 1) + (dim + 1)) with ((snd s + 1) * (dim + 1)) by ring. destruct (write_block d ((snd s + 1) * (dim + 1)) r1); cbn [bind]; try reflexivity. do 2 f_equal. change (zlen [r0; r1]) with 2. lia.
  - intros key e m lo hi Ee Em El Eh. destruct (HR key e m lo hi Ee Em El Eh) as (RS & E1 & E2 & _).
    assert (exists ps, RS = map (fun p => [fst p; snd p]) ps /\ mapM (fun p => dom <- zget (adj_ab2b e2d) p ;; code <- zget codes p ;; r0 <- pair_row dim dv2v old2new dom (code_which_down code) (code_rotation code) m 0 ;; r1 <- pair_row dim dv2v old2new dom (code_which_down code) (code_rotation code) m 1 ;; Ok (r0, r1)) (zfromto lo hi) = Ok ps) as (ps & -> & Eps); [|exists ps; auto].
    clear - E2. revert RS E2. induction (zfromto lo hi) as [|p l IH]; intros RS E; cbn [mapM] in E |- *; [injection E as <-; exists []; auto|]. apply bind_ok in E as (rs & Ers & E). apply bind_ok in E as (RS' & ERS & E). injection E as <-. apply bind_ok in Ers as (dom & Edom & Ers). apply bind_ok in Ers as (code & Ecode & Ers). unfold f in Ers. apply bind_ok in Ers as (r0 & R0 & Ers). apply bind_ok in Ers as (r1 & R1 & Ers). injection Ers as <-.
    destruct (IH RS' ERS) as (ps & -> & Eps). exists ((r0, r1) :: ps). split; [reflexivity|]. rewrite Edom. cbn [bind]. rewrite Ecode. cbn [bind]. rewrite R0. cbn [bind]. rewrite R1. cbn [bind]. rewrite Eps. reflexivity.
Qed.

Lemma cuts_flat dim dv2v e2d codes keys2edges mids old2new : 2 <= dim ->
  wf_adj e2d -> adj_codes e2d = Some codes -> (forall e, In e keys2edges -> 0 <= e < zlen (adj_a2ab e2d) - 1) -> zlen mids = zlen keys2edges ->
  (forall e m p dom code, In e keys2edges -> In m mids -> in_group (adj_a2ab e2d) e p -> zget (adj_ab2b e2d) p = Ok dom -> zget codes p = Ok code ->
     exists r, cut_row dim dv2v old2new dom (code_which_down code) m = Ok r /\ zlen r = dim) ->
  exists L, refine_domains_to_cuts dim dv2v e2d keys2edges mids old2new = Ok (offset_scan (map zlen L), flat dim L) /\ zlen L = zlen keys2edges /\
  (forall ts, In ts L -> forall t, In t ts -> zlen t = dim) /\
  forall key e m lo hi, zget keys2edges key = Ok e -> zget mids key = Ok m -> zget (adj_a2ab e2d) e = Ok lo -> zget (adj_a2ab e2d) (e + 1) = Ok hi ->
  exists cs, nth_error L (Z.to_nat key) = Some cs /\
  mapM (fun p => dom <- zget (adj_ab2b e2d) p ;; code <- zget codes p ;; cut_row dim dv2v old2new dom (code_which_down code) m) (zfromto lo hi) = Ok cs.
Proof.
  intros Hdim W Ec Hk Lm Hp.
  set (f := fun m dom code => r <- cut_row dim dv2v old2new dom (code_which_down code) m ;; Ok [r]).
  destruct (dom_rows dim 1 e2d codes keys2edges mids f W Ec Hk Lm) as (D & L & ED & LL & EO & HW & HR).
  { intros key e m p dom code Ee Em Hg Ed Eco. assert (In e keys2edges) as Ie by (eapply zget_In, Ee). assert (In m mids) as Im by (eapply zget_In, Em). destruct (Hp e m p dom code Ie Im Hg Ed Eco) as (r0 & E0 & L0).
    exists [r0]. unfold f. rewrite E0. split; [reflexivity|]. split; [reflexivity|]. intros r [<-|[]]; assumption. }
  assert (offset_scan (map zlen L) = offset_scan D) as EO'. { rewrite EO. erewrite map_ext; [apply map_id|]. intros; cbn; lia. } clear EO. rename EO' into EO.
  exists L. split; [|split; [exact LL | split; [exact HW|]]].
  - unfold refine_domains_to_cuts. destruct (Z.ltb_spec 1 dim); [|lia]. cbn [negb]. rewrite Ec. cbn [bind]. rewrite ED. cbn [bind]. rewrite <- EO.
    pose proof (offset_scan_last (map zlen L)) as HH. rewrite HH. cbn [bind].
    rewrite <- (zlen_flat dim) by exact HW.
    rewrite blank_ok by apply zlen_nonneg. cbn [bind]. rewrite <- LL. rewrite (write_keys dim L) ; [|exact HW|].
    + cbn [bind]. rewrite (proj2 (freeze_ok _ (flat dim L)) eq_refl). reflexivity.
    + intros j rows out Ej. assert (j < length L)%nat as Hj by (apply nth_error_Some; congruence). destruct (zget_in_range keys2edges (Z.of_nat j)) as (e & Ee); [unfold zlen in *; lia|]. destruct (zget_in_range mids (Z.of_nat j)) as (m & Em); [unfold zlen in *; lia|]. pose proof (Hk e (zget_In _ _ _ Ee)) as Be.
      destruct (zget_in_range (adj_a2ab e2d) e) as (lo & El); [lia|]. destruct (zget_in_range (adj_a2ab e2d) (e + 1)) as (hi & Eh); [lia|]. destruct (HR (Z.of_nat j) e m lo hi Ee Em El Eh) as (RS & E1 & E2 & E3). rewrite Nat2Z.id in E1. assert (rows = concat RS) as -> by congruence.
      rewrite Ee. cbn [bind]. rewrite Em. cbn [bind]. destruct (zget (offset_scan (map zlen L)) (Z.of_nat j)) as [p| |]; cbn [bind]; try reflexivity. rewrite El. cbn [bind]. rewrite Eh. cbn [bind].
      rewrite (ptr_blocks dim _ _ (zfromto lo hi) RS E2).
      * destruct (write_block out (p * dim) (concat (concat RS))); reflexivity.
      * intros q rs Hq Eq. apply bind_ok in Eq as (dom & Edom & Eq). apply bind_ok in Eq as (code & Ecode & Eq). destruct (E3 q rs dom code Hq Edom Ecode Eq) as [F1 F2]. split; [exact F2|]. intros s. rewrite Edom. cbn [bind]. rewrite Ecode. cbn [bind]. unfold f in Eq. apply bind_ok in Eq as (r0 & R0 & Eq). injection Eq as <-. rewrite R0. cbn [bind concat]. rewrite app_nil_r. reflexivity.
  - intros key e m lo hi Ee Em El Eh. destruct (HR key e m lo hi Ee Em El Eh) as (RS & E1 & E2 & _).
    exists (concat RS). split; [exact E1|].
    clear - E2. revert RS E2. induction (zfromto lo hi) as [|p l IH]; intros RS E; cbn [mapM] in E |- *; [injection E as <-; reflexivity|]. apply bind_ok in E as (rs & Ers & E). apply bind_ok in E as (RS' & ERS & E). injection E as <-. apply bind_ok in Ers as (dom & Edom & Ers). apply bind_ok in Ers as (code & Ecode & Ers). unfold f in Ers. apply bind_ok in Ers as (r0 & R0 & Ers). injection Ers as <-.
    rewrite Edom. cbn [bind]. rewrite Ecode. cbn [bind]. rewrite R0. cbn [bind]. rewrite (IH RS' ERS). reflexivity.
Qed.

(** ** pairs and cuts together *)
Fixpoint zipw {A} (L M : list (list A)) : list (list A) := match L, M with l :: L, m :: M => (l ++ m) :: zipw L M | _, _ => [] end.
Lemma zipw_len {A} (L M : list (list A)) : length L = length M -> length (zipw L M) = length L.
Proof. revert M. induction L as [|l L IH]; intros [|m M] H; try discriminate; [reflexivity|]. cbn. f_equal. apply IH. injection H as H. exact H. Qed.
Lemma zipw_nth {A} (L M : list (list A)) j l m : nth_error L j = Some l -> nth_error M j = Some m -> nth_error (zipw L M) j = Some (l ++ m).
Proof. revert L M. induction j as [|j IH]; intros [|x L] [|y M] H1 H2; try discriminate; cbn in *; [congruence | auto]. Qed.
Lemma add_lens {A} (Lc Lp : list (list A)) : zlen Lc = zlen Lp -> add_each (map zlen Lc) (map zlen Lp) = Ok (map zlen (zipw Lp Lc)).
Proof.
  intros H. set (rep := fun r : list A => repeat 0 (length r)). assert (forall M, map zlen (map rep M) = map zlen M) as Er. { intros M. rewrite map_map. apply map_ext. intros r. unfold rep. rewrite zlen_repeat. unfold zlen. lia. }
  rewrite <- (Er Lc), <- (Er Lp), add_each_lens by (rewrite !zlen_map; exact H). f_equal. assert (length Lc = length Lp) as H' by (unfold zlen in H; lia). clear H. revert Lp H'. induction Lc as [|c Lc IH]; intros [|q Lp] H; try discriminate; [reflexivity|]. cbn [map zipapp zipw]. rewrite !zlen_app. unfold rep at 1 2. rewrite !zlen_repeat. f_equal; [unfold zlen; lia|]. apply IH. injection H as H. exact H.
Qed.
Lemma copy_rows_ok k src lo hi rows : ents_between k src lo hi = Ok rows -> (forall r, In r rows -> zlen r = k) -> forall s, copy_rows k src lo hi s = (out <- write_block (fst s) (snd s * k) (concat rows) ;; Ok (out, snd s + zlen rows)).
Proof. intros E Hk [out p]. unfold copy_rows. exact (ptr_rows k (verts_of k src) _ (zfromto lo hi) rows E Hk (fun s x => eq_refl) out p). Qed.

Lemma combine_flat ent_dim k Lc Lp : 0 <= k -> simplex_degree ent_dim 0 = k -> zlen Lc = zlen Lp -> (forall ts, In ts Lc -> forall t, In t ts -> zlen t = k) -> (forall ts, In ts Lp -> forall t, In t ts -> zlen t = k) ->
  combine_pairs_and_cuts ent_dim (offset_scan (map zlen Lc)) (offset_scan (map zlen Lp)) (flat k Lc) (flat k Lp) = Ok (offset_scan (map zlen (zipw Lp Lc)), flat k (zipw Lp Lc)) /\
  (forall ts, In ts (zipw Lp Lc) -> forall t, In t ts -> zlen t = k).
Proof.
  intros Hk Ed HL Hc Hp. assert (length Lp = length Lc) as Hlen by (unfold zlen in HL; lia).
  assert (forall ts, In ts (zipw Lp Lc) -> forall t, In t ts -> zlen t = k) as Hz.
  { clear - Hc Hp. revert Lc Hc. induction Lp as [|q Lp IH]; intros [|c Lc] Hc ts Hts; try destruct Hts as [<-|Hts]; try contradiction.
    - intros t Ht. apply in_app_or in Ht as [Ht|Ht]; [eapply Hp | eapply Hc]; try eassumption; left; reflexivity.
    - apply (IH (fun u Hu => Hp u (or_intror Hu)) Lc (fun u Hu => Hc u (or_intror Hu)) ts Hts). }
  split; [|exact Hz]. unfold combine_pairs_and_cuts. rewrite !offset_scan_length, !zlen_map. replace (zlen Lc + 1 - 1) with (zlen Lc) by lia. replace (zlen Lp + 1 - 1) with (zlen Lp) by lia. rewrite (proj2 (Z.eqb_eq _ _) HL). cbn [negb]. rewrite !degrees_of_offsets. cbn [bind]. rewrite add_lens by exact HL. cbn [bind].
  rewrite offset_scan_last. cbn [bind]. rewrite Ed, <- (zlen_flat k) by exact Hz. rewrite blank_ok by apply zlen_nonneg. cbn [bind].
  replace (zlen Lc) with (zlen (zipw Lp Lc)) by (unfold zlen; rewrite zipw_len by exact Hlen; lia). rewrite (write_keys k (zipw Lp Lc)); [cbn [bind]; rewrite (proj2 (freeze_ok _ (flat k (zipw Lp Lc))) eq_refl); reflexivity | exact Hz |].
  intros j rows out Ej. assert (j < length (zipw Lp Lc))%nat as Hj by (apply nth_error_Some; congruence). rewrite zipw_len in Hj by exact Hlen.
  destruct (nth_error Lp j) as [q|] eqn:Eq; [|apply nth_error_None in Eq; lia]. destruct (nth_error Lc j) as [c|] eqn:Ecj; [|apply nth_error_None in Ecj; lia]. rewrite (zipw_nth Lp Lc j q c Eq Ecj) in Ej. injection Ej as <-.
  destruct (flat_ents k Lp j q Hk Hp Eq) as (plo & phi & P1 & P2 & P3). destruct (flat_ents k Lc j c Hk Hc Ecj) as (clo & chi & C1 & C2 & C3).
  destruct (zget (offset_scan (map zlen (zipw Lp Lc))) (Z.of_nat j)) as [p| |]; cbn [bind]; try reflexivity. rewrite P1. cbn [bind]. rewrite P2. cbn [bind].
  assert (forall r, In r q -> zlen r = k) as Hq by (apply Hp; eapply nth_error_In, Eq). assert (forall r, In r c -> zlen r = k) as Hc' by (apply Hc; eapply nth_error_In, Ecj).
  rewrite (copy_rows_ok k _ plo phi q P3 Hq). cbn [fst snd]. rewrite concat_app, write_block_app. destruct (write_block out (p * k) (concat q)) as [d| |]; cbn [bind]; try reflexivity. rewrite C1. cbn [bind]. rewrite C2. cbn [bind]. rewrite (copy_rows_ok k _ clo chi c C3 Hc'). cbn [fst snd]. rewrite (zlen_concat k q Hq). replace (p * k + zlen q * k) with ((p + zlen q) * k) by ring. destruct (write_block d ((p + zlen q) * k) (concat c)); reflexivity.
Qed.

(** ** one domain *)
Lemma verts3 dv2v c vs : verts_of 3 dv2v c = Ok vs -> exists a b d, vs = [a; b; d] /\ zget dv2v (c * 3 + 0) = Ok a /\ zget dv2v (c * 3 + 1) = Ok b /\ zget dv2v (c * 3 + 2) = Ok d.
Proof.
  unfold verts_of. change (zrange 3) with [0; 1; 2]. cbn [mapM]. intros E. apply bind_ok in E as (a & Ea & E). apply bind_ok in E as (t & E & Et). apply bind_ok in E as (b & Eb & E). apply bind_ok in E as (t2 & E & Et2). apply bind_ok in E as (d & Ed & E). injection E as <-. injection Et2 as <-. injection Et as <-. eauto 8.
Qed.
Lemma verts4 dv2v c vs : verts_of 4 dv2v c = Ok vs -> exists a b d e, vs = [a; b; d; e] /\ zget dv2v (c * 4 + 0) = Ok a /\ zget dv2v (c * 4 + 1) = Ok b /\ zget dv2v (c * 4 + 2) = Ok d /\ zget dv2v (c * 4 + 3) = Ok e.
Proof.
  unfold verts_of. change (zrange 4) with [0; 1; 2; 3]. cbn [mapM]. intros E. apply bind_ok in E as (a & Ea & E). apply bind_ok in E as (t & E & Et). apply bind_ok in E as (b & Eb & E). apply bind_ok in E as (t2 & E & Et2). apply bind_ok in E as (d & Ed & E). apply bind_ok in E as (t3 & E & Et3). apply bind_ok in E as (e & Ee & E). injection E as <-. injection Et3 as <-. injection Et2 as <-. injection Et as <-. exists a, b, d, e. auto.
Qed.

Lemma pair_row_ok dim dv2v old2new dom dde rot m eev gone vs : dim = 2 \/ dim = 3 -> eev = 0 \/ eev = 1 -> verts_of (dim + 1) dv2v dom = Ok vs -> distinct_verts dim dv2v dom -> (forall x, In x vs -> 0 <= x < zlen old2new) ->
  0 <= dde < simplex_degree dim 1 -> 0 <= rot < 2 -> zget dv2v (dom * (dim + 1) + simplex_down_template dim 1 dde (Z.lxor rot eev)) = Ok gone ->
  exists row ch, pair_row dim dv2v old2new dom dde rot m eev = Ok row /\ zlen row = dim + 1 /\ mapM (replaced old2new gone m) vs = Ok ch /\ oriented_as dim ch row.
Proof.
  intros Hd Heev Evs Hdist Hr Hdde Hrot Eg. unfold pair_row. rewrite Z.lxor_comm in Eg. set (ddv := simplex_down_template dim 1 dde (Z.lxor eev rot)) in *.
  assert (0 <= ddv <= dim) as Hv. { assert (rot = 0 \/ rot = 1) as Hrt by lia. unfold ddv. destruct Hd as [-> | ->]; [change (simplex_degree 2 1) with 3 in Hdde; assert (dde = 0 \/ dde = 1 \/ dde = 2) as Hc by lia; destruct Hc as [->|[->| ->]] | change (simplex_degree 3 1) with 6 in Hdde; assert (dde = 0 \/ dde = 1 \/ dde = 2 \/ dde = 3 \/ dde = 4 \/ dde = 5) as Hc by lia; destruct Hc as [->|[->|[->|[->|[->| ->]]]]]]; destruct Hrt as [-> | ->], Heev as [-> | ->]; vm_compute; split; congruence. }
  clearbody ddv. clear Hdde Hrot Heev dde rot eev.
  assert (forall j x, 0 <= j <= dim -> zget dv2v (dom * (dim + 1) + j) = Ok x -> j <> ddv -> (x =? gone) = false) as Hne. { intros j x Hj Ex Hn. apply Z.eqb_neq. intros ->. apply Hn. eapply Hdist; eauto. }
  destruct Hd as [-> | ->]; change (2 + 1) with 3 in *; change (3 + 1) with 4 in *; change (2 - 1) with 1 in *; change (3 - 1) with 2 in *.
  - destruct (verts3 _ _ _ Evs) as (a & b & c & -> & Ea & Eb & Ec). destruct (zget_in_range old2new a) as (na & Ena); [apply Hr; cbn [In]; auto|]. destruct (zget_in_range old2new b) as (nb & Enb); [apply Hr; cbn [In]; auto|]. destruct (zget_in_range old2new c) as (nc & Enc); [apply Hr; cbn [In]; auto|].
    unfold tabulate. change (zrange 2) with [0; 1]. destruct (cases3 ddv Hv) as [->|[->| ->]].
    + assert (gone = a) as -> by congruence. assert (mapM (replaced old2new a m) [a; b; c] = Ok [m; nb; nc]) as E. { cbn [mapM]. unfold replaced at 1. rewrite Z.eqb_refl. unfold replaced. rewrite (Hne 1 b ltac:(lia) Eb ltac:(lia)), (Hne 2 c ltac:(lia) Ec ltac:(lia)), Enb, Enc. reflexivity. }
      rewrite E. exists [nb; nc; m], [m; nb; nc]. change (simplex_opposite_template 2 0 0) with 1. change (simplex_down_template 2 1 1 0) with 1. cbn [mapM bind]. change (simplex_down_template 2 1 1 0) with 1. change (simplex_down_template 2 1 1 1) with 2. rewrite Eb. cbn [bind]. rewrite Enb. cbn [bind]. rewrite Ec. cbn [bind]. rewrite Enc. cbn [bind]. split; [reflexivity|]. split; [reflexivity|]. split; [reflexivity|]. cbn. auto.
    + assert (gone = b) as -> by congruence. assert (mapM (replaced old2new b m) [a; b; c] = Ok [na; m; nc]) as E. { cbn [mapM]. unfold replaced at 2. rewrite Z.eqb_refl. unfold replaced. rewrite (Hne 0 a ltac:(lia) Ea ltac:(lia)), (Hne 2 c ltac:(lia) Ec ltac:(lia)), Ena, Enc. reflexivity. }
      rewrite E. exists [nc; na; m], [na; m; nc]. change (simplex_opposite_template 2 0 1) with 2. cbn [mapM bind]. change (simplex_down_template 2 1 2 0) with 2. change (simplex_down_template 2 1 2 1) with 0. rewrite Ec. cbn [bind]. rewrite Enc. cbn [bind]. rewrite Ea. cbn [bind]. rewrite Ena. cbn [bind]. split; [reflexivity|]. split; [reflexivity|]. split; [reflexivity|]. cbn. auto.
    + assert (gone = c) as -> by congruence. assert (mapM (replaced old2new c m) [a; b; c] = Ok [na; nb; m]) as E. { cbn [mapM]. unfold replaced at 3. rewrite Z.eqb_refl. unfold replaced. rewrite (Hne 0 a ltac:(lia) Ea ltac:(lia)), (Hne 1 b ltac:(lia) Eb ltac:(lia)), Ena, Enb. reflexivity. }
      rewrite E. exists [na; nb; m], [na; nb; m]. change (simplex_opposite_template 2 0 2) with 0. cbn [mapM bind]. change (simplex_down_template 2 1 0 0) with 0. change (simplex_down_template 2 1 0 1) with 1. rewrite Ea. cbn [bind]. rewrite Ena. cbn [bind]. rewrite Eb. cbn [bind]. rewrite Enb. cbn [bind]. split; [reflexivity|]. split; [reflexivity|]. split; [reflexivity|]. cbn. auto.
  - destruct (verts4 _ _ _ Evs) as (a & b & c & d & -> & Ea & Eb & Ec & Ed). destruct (zget_in_range old2new a) as (na & Ena); [apply Hr; cbn [In]; auto|]. destruct (zget_in_range old2new b) as (nb & Enb); [apply Hr; cbn [In]; auto|]. destruct (zget_in_range old2new c) as (nc & Enc); [apply Hr; cbn [In]; auto|]. destruct (zget_in_range old2new d) as (nd & End); [apply Hr; cbn [In]; auto|].
    unfold tabulate. change (zrange 3) with [0; 1; 2]. assert (ddv = 0 \/ ddv = 1 \/ ddv = 2 \/ ddv = 3) as [->|[->|[->| ->]]] by lia.
    + assert (gone = a) as -> by congruence. assert (mapM (replaced old2new a m) [a; b; c; d] = Ok [m; nb; nc; nd]) as E. { cbn [mapM]. unfold replaced at 1. rewrite Z.eqb_refl. unfold replaced. rewrite (Hne 1 b ltac:(lia) Eb ltac:(lia)), (Hne 2 c ltac:(lia) Ec ltac:(lia)), (Hne 3 d ltac:(lia) Ed ltac:(lia)), Enb, Enc, End. reflexivity. }
      rewrite E. do 2 eexists. change (simplex_opposite_template 3 0 0) with 2. cbn [mapM bind]. change (simplex_down_template 3 2 2 0) with 1. change (simplex_down_template 3 2 2 1) with 2. change (simplex_down_template 3 2 2 2) with 3. rewrite Eb. cbn [bind]. rewrite Enb. cbn [bind]. rewrite Ec. cbn [bind]. rewrite Enc. cbn [bind]. rewrite Ed. cbn [bind]. rewrite End. cbn [bind]. split; [reflexivity|]. split; [reflexivity|]. split; [reflexivity|]. cbn. tauto.
    + assert (gone = b) as -> by congruence. assert (mapM (replaced old2new b m) [a; b; c; d] = Ok [na; m; nc; nd]) as E. { cbn [mapM]. unfold replaced at 2. rewrite Z.eqb_refl. unfold replaced. rewrite (Hne 0 a ltac:(lia) Ea ltac:(lia)), (Hne 2 c ltac:(lia) Ec ltac:(lia)), (Hne 3 d ltac:(lia) Ed ltac:(lia)), Ena, Enc, End. reflexivity. }
      rewrite E. do 2 eexists. change (simplex_opposite_template 3 0 1) with 3. cbn [mapM bind]. change (simplex_down_template 3 2 3 0) with 2. change (simplex_down_template 3 2 3 1) with 0. change (simplex_down_template 3 2 3 2) with 3. rewrite Ec. cbn [bind]. rewrite Enc. cbn [bind]. rewrite Ea. cbn [bind]. rewrite Ena. cbn [bind]. rewrite Ed. cbn [bind]. rewrite End. cbn [bind]. split; [reflexivity|]. split; [reflexivity|]. split; [reflexivity|]. cbn. tauto.
    + assert (gone = c) as -> by congruence. assert (mapM (replaced old2new c m) [a; b; c; d] = Ok [na; nb; m; nd]) as E. { cbn [mapM]. unfold replaced at 3. rewrite Z.eqb_refl. unfold replaced. rewrite (Hne 0 a ltac:(lia) Ea ltac:(lia)), (Hne 1 b ltac:(lia) Eb ltac:(lia)), (Hne 3 d ltac:(lia) Ed ltac:(lia)), Ena, Enb, End. reflexivity. }
      rewrite E. do 2 eexists. change (simplex_opposite_template 3 0 2) with 1. cbn [mapM bind]. change (simplex_down_template 3 2 1 0) with 0. change (simplex_down_template 3 2 1 1) with 1. change (simplex_down_template 3 2 1 2) with 3. rewrite Ea. cbn [bind]. rewrite Ena. cbn [bind]. rewrite Eb. cbn [bind]. rewrite Enb. cbn [bind]. rewrite Ed. cbn [bind]. rewrite End. cbn [bind]. split; [reflexivity|]. split; [reflexivity|]. split; [reflexivity|]. cbn. tauto.
    + assert (gone = d) as -> by congruence. assert (mapM (replaced old2new d m) [a; b; c; d] = Ok [na; nb; nc; m]) as E. { cbn [mapM]. unfold replaced at 4. rewrite Z.eqb_refl. unfold replaced. rewrite (Hne 0 a ltac:(lia) Ea ltac:(lia)), (Hne 1 b ltac:(lia) Eb ltac:(lia)), (Hne 2 c ltac:(lia) Ec ltac:(lia)), Ena, Enb, Enc. reflexivity. }
      rewrite E. do 2 eexists. change (simplex_opposite_template 3 0 3) with 0. cbn [mapM bind]. change (simplex_down_template 3 2 0 0) with 0. change (simplex_down_template 3 2 0 1) with 2. change (simplex_down_template 3 2 0 2) with 1. rewrite Ea. cbn [bind]. rewrite Ena. cbn [bind]. rewrite Eb. cbn [bind]. rewrite Enb. cbn [bind]. rewrite Ec. cbn [bind]. rewrite Enc. cbn [bind]. split; [reflexivity|]. split; [reflexivity|]. split; [reflexivity|]. cbn. tauto.
Qed.

Lemma cut_row_ok dim dv2v old2new dom dde rot m a b vs : dim = 2 \/ dim = 3 -> verts_of (dim + 1) dv2v dom = Ok vs -> distinct_verts dim dv2v dom -> (forall x, In x vs -> 0 <= x < zlen old2new) ->
  0 <= dde < simplex_degree dim 1 -> 0 <= rot < 2 ->
  zget dv2v (dom * (dim + 1) + simplex_down_template dim 1 dde (Z.lxor rot 0)) = Ok a -> zget dv2v (dom * (dim + 1) + simplex_down_template dim 1 dde (Z.lxor rot 1)) = Ok b ->
  exists row, cut_row dim dv2v old2new dom dde m = Ok row /\ zlen row = dim /\ separator old2new vs a b m row.
Proof.
  intros Hd Evs Hdist Hr Hdde Hrot E0 E1. assert (rot = 0 \/ rot = 1) as Hrt by lia. clear Hrot.
  assert (exists u v, ((u = a /\ v = b) \/ (u = b /\ v = a)) /\ zget dv2v (dom * (dim + 1) + simplex_down_template dim 1 dde 0) = Ok u /\ zget dv2v (dom * (dim + 1) + simplex_down_template dim 1 dde 1) = Ok v) as (u & v & Huv & Eu & Ev). { destruct Hrt as [-> | ->]; [change (Z.lxor 0 0) with 0 in *; change (Z.lxor 0 1) with 1 in *; exists a, b | change (Z.lxor 1 0) with 1 in *; change (Z.lxor 1 1) with 0 in *; exists b, a]; auto. }
  enough (exists row, cut_row dim dv2v old2new dom dde m = Ok row /\ zlen row = dim /\ separator old2new vs u v m row) as (row & R1 & R2 & R3).
  { exists row. split; [exact R1|]. split; [exact R2|]. destruct Huv as [[-> ->]|[-> ->]]; [exact R3|]. destruct R3 as (others & O1 & O2). exists others. split; [|exact O2]. rewrite <- O1. f_equal. apply filter_ext. intros x. apply andb_comm. }
  clear Huv E0 E1 a b Hrt rot.
  assert (forall i j x y, 0 <= i <= dim -> 0 <= j <= dim -> i <> j -> zget dv2v (dom * (dim + 1) + i) = Ok x -> zget dv2v (dom * (dim + 1) + j) = Ok y -> (x =? y) = false) as Hne. { intros i j x y Hi Hj Hij Ex Ey. apply Z.eqb_neq. intros ->. apply Hij. eapply Hdist; eauto. }
  unfold cut_row, separator, tabulate. destruct Hd as [-> | ->].
  - change (2 + 1) with 3 in *. change (2 - 1) with 1 in *. change (2 - 2) with 0 in *. change (simplex_degree 2 1) with 3 in Hdde. destruct (verts3 _ _ _ Evs) as (a & b & c & -> & Ea & Eb & Ec). destruct (zget_in_range old2new a) as (na & Ena); [apply Hr; cbn [In]; auto|]. destruct (zget_in_range old2new b) as (nb & Enb); [apply Hr; cbn [In]; auto|]. destruct (zget_in_range old2new c) as (nc & Enc); [apply Hr; cbn [In]; auto|].
    pose proof (Hne 0 1 a b ltac:(lia) ltac:(lia) ltac:(lia) Ea Eb) as Nab. pose proof (Hne 0 2 a c ltac:(lia) ltac:(lia) ltac:(lia) Ea Ec) as Nac. pose proof (Hne 1 2 b c ltac:(lia) ltac:(lia) ltac:(lia) Eb Ec) as Nbc. pose proof Nab as Nba. pose proof Nac as Nca. pose proof Nbc as Ncb. rewrite Z.eqb_sym in Nba, Nca, Ncb.
    change (zrange 1) with [0]. assert (dde = 0 \/ dde = 1 \/ dde = 2) as [->|[->| ->]] by lia; vm_compute (simplex_down_template _ _ _ _) in Eu, Ev.
    + assert (u = a) as -> by congruence. assert (v = b) as -> by congruence. change (simplex_opposite_template 2 1 0) with 2. cbn [mapM bind]. change (simplex_down_template 2 0 2 0) with 2. rewrite Ec. cbn [bind]. rewrite Enc. cbn [bind]. eexists. split; [reflexivity|]. split; [reflexivity|]. exists [nc]. cbn [filter]. rewrite ?Z.eqb_refl, ?Nab, ?Nac, ?Nbc, ?Nba, ?Nca, ?Ncb. cbn [negb andb mapM]. rewrite Enc. split; [reflexivity | apply perm_swap].
    + assert (u = b) as -> by congruence. assert (v = c) as -> by congruence. change (simplex_opposite_template 2 1 1) with 0. cbn [mapM bind]. change (simplex_down_template 2 0 0 0) with 0. rewrite Ea. cbn [bind]. rewrite Ena. cbn [bind]. eexists. split; [reflexivity|]. split; [reflexivity|]. exists [na]. cbn [filter]. rewrite ?Z.eqb_refl, ?Nab, ?Nac, ?Nbc, ?Nba, ?Nca, ?Ncb. cbn [negb andb mapM]. rewrite Ena. split; [reflexivity | apply perm_swap].
    + assert (u = c) as -> by congruence. assert (v = a) as -> by congruence. change (simplex_opposite_template 2 1 2) with 1. cbn [mapM bind]. change (simplex_down_template 2 0 1 0) with 1. rewrite Eb. cbn [bind]. rewrite Enb. cbn [bind]. eexists. split; [reflexivity|]. split; [reflexivity|]. exists [nb]. cbn [filter]. rewrite ?Z.eqb_refl, ?Nab, ?Nac, ?Nbc, ?Nba, ?Nca, ?Ncb. cbn [negb andb mapM]. rewrite Enb. split; [reflexivity | apply perm_swap].
  - change (3 + 1) with 4 in *. change (3 - 1) with 2 in *. change (3 - 2) with 1 in *. change (simplex_degree 3 1) with 6 in Hdde. destruct (verts4 _ _ _ Evs) as (a & b & c & d & -> & Ea & Eb & Ec & Ed). destruct (zget_in_range old2new a) as (na & Ena); [apply Hr; cbn [In]; auto|]. destruct (zget_in_range old2new b) as (nb & Enb); [apply Hr; cbn [In]; auto|]. destruct (zget_in_range old2new c) as (nc & Enc); [apply Hr; cbn [In]; auto|]. destruct (zget_in_range old2new d) as (nd & End); [apply Hr; cbn [In]; auto|].
    pose proof (Hne 0 1 a b ltac:(lia) ltac:(lia) ltac:(lia) Ea Eb) as Nab. pose proof (Hne 0 2 a c ltac:(lia) ltac:(lia) ltac:(lia) Ea Ec) as Nac. pose proof (Hne 1 2 b c ltac:(lia) ltac:(lia) ltac:(lia) Eb Ec) as Nbc. pose proof (Hne 0 3 a d ltac:(lia) ltac:(lia) ltac:(lia) Ea Ed) as Nad. pose proof (Hne 1 3 b d ltac:(lia) ltac:(lia) ltac:(lia) Eb Ed) as Nbd. pose proof (Hne 2 3 c d ltac:(lia) ltac:(lia) ltac:(lia) Ec Ed) as Ncd.
    pose proof Nab as Nba. pose proof Nac as Nca. pose proof Nbc as Ncb. pose proof Nad as Nda. pose proof Nbd as Ndb. pose proof Ncd as Ndc. rewrite Z.eqb_sym in Nba, Nca, Ncb, Nda, Ndb, Ndc.
    change (zrange 2) with [0; 1]. assert (dde = 0 \/ dde = 1 \/ dde = 2 \/ dde = 3 \/ dde = 4 \/ dde = 5) as [->|[->|[->|[->|[->| ->]]]]] by lia; vm_compute (simplex_down_template _ _ _ _) in Eu, Ev.
    + assert (u = a) as -> by congruence. assert (v = b) as -> by congruence. cbn [mapM bind]. change (simplex_down_template 3 1 (simplex_opposite_template 3 1 0) 0) with 2. change (simplex_down_template 3 1 (simplex_opposite_template 3 1 0) 1) with 3. rewrite ?Ea, ?Eb, ?Ec, ?Ed. cbn [bind]. rewrite ?Ena, ?Enb, ?Enc, ?End. cbn [bind]. rewrite ?Ea, ?Eb, ?Ec, ?Ed. cbn [bind]. rewrite ?Ena, ?Enb, ?Enc, ?End. cbn [bind]. eexists. split; [reflexivity|]. split; [reflexivity|]. exists [nc; nd]. cbn [filter]. rewrite ?Z.eqb_refl, ?Nab, ?Nac, ?Nbc, ?Nba, ?Nca, ?Ncb, ?Nad, ?Nda, ?Nbd, ?Ndb, ?Ncd, ?Ndc. cbn [negb andb mapM]. rewrite ?Ena, ?Enb, ?Enc, ?End. split; [reflexivity|]. apply Permutation_sym. eapply perm_trans; [apply perm_swap | apply perm_skip, perm_swap].
    + assert (u = b) as -> by congruence. assert (v = c) as -> by congruence. cbn [mapM bind]. change (simplex_down_template 3 1 (simplex_opposite_template 3 1 1) 0) with 0. change (simplex_down_template 3 1 (simplex_opposite_template 3 1 1) 1) with 3. rewrite ?Ea, ?Eb, ?Ec, ?Ed. cbn [bind]. rewrite ?Ena, ?Enb, ?Enc, ?End. cbn [bind]. rewrite ?Ea, ?Eb, ?Ec, ?Ed. cbn [bind]. rewrite ?Ena, ?Enb, ?Enc, ?End. cbn [bind]. eexists. split; [reflexivity|]. split; [reflexivity|]. exists [na; nd]. cbn [filter]. rewrite ?Z.eqb_refl, ?Nab, ?Nac, ?Nbc, ?Nba, ?Nca, ?Ncb, ?Nad, ?Nda, ?Nbd, ?Ndb, ?Ncd, ?Ndc. cbn [negb andb mapM]. rewrite ?Ena, ?Enb, ?Enc, ?End. split; [reflexivity|]. apply Permutation_sym. eapply perm_trans; [apply perm_swap | apply perm_skip, perm_swap].
    + assert (u = c) as -> by congruence. assert (v = a) as -> by congruence. cbn [mapM bind]. change (simplex_down_template 3 1 (simplex_opposite_template 3 1 2) 0) with 1. change (simplex_down_template 3 1 (simplex_opposite_template 3 1 2) 1) with 3. rewrite ?Ea, ?Eb, ?Ec, ?Ed. cbn [bind]. rewrite ?Ena, ?Enb, ?Enc, ?End. cbn [bind]. rewrite ?Ea, ?Eb, ?Ec, ?Ed. cbn [bind]. rewrite ?Ena, ?Enb, ?Enc, ?End. cbn [bind]. eexists. split; [reflexivity|]. split; [reflexivity|]. exists [nb; nd]. cbn [filter]. rewrite ?Z.eqb_refl, ?Nab, ?Nac, ?Nbc, ?Nba, ?Nca, ?Ncb, ?Nad, ?Nda, ?Nbd, ?Ndb, ?Ncd, ?Ndc. cbn [negb andb mapM]. rewrite ?Ena, ?Enb, ?Enc, ?End. split; [reflexivity|]. apply Permutation_sym. eapply perm_trans; [apply perm_swap | apply perm_skip, perm_swap].
    + assert (u = a) as -> by congruence. assert (v = d) as -> by congruence. cbn [mapM bind]. change (simplex_down_template 3 1 (simplex_opposite_template 3 1 3) 0) with 1. change (simplex_down_template 3 1 (simplex_opposite_template 3 1 3) 1) with 2. rewrite ?Ea, ?Eb, ?Ec, ?Ed. cbn [bind]. rewrite ?Ena, ?Enb, ?Enc, ?End. cbn [bind]. rewrite ?Ea, ?Eb, ?Ec, ?Ed. cbn [bind]. rewrite ?Ena, ?Enb, ?Enc, ?End. cbn [bind]. eexists. split; [reflexivity|]. split; [reflexivity|]. exists [nb; nc]. cbn [filter]. rewrite ?Z.eqb_refl, ?Nab, ?Nac, ?Nbc, ?Nba, ?Nca, ?Ncb, ?Nad, ?Nda, ?Nbd, ?Ndb, ?Ncd, ?Ndc. cbn [negb andb mapM]. rewrite ?Ena, ?Enb, ?Enc, ?End. split; [reflexivity|]. apply Permutation_sym. eapply perm_trans; [apply perm_swap | apply perm_skip, perm_swap].
    + assert (u = b) as -> by congruence. assert (v = d) as -> by congruence. cbn [mapM bind]. change (simplex_down_template 3 1 (simplex_opposite_template 3 1 4) 0) with 2. change (simplex_down_template 3 1 (simplex_opposite_template 3 1 4) 1) with 0. rewrite ?Ea, ?Eb, ?Ec, ?Ed. cbn [bind]. rewrite ?Ena, ?Enb, ?Enc, ?End. cbn [bind]. rewrite ?Ea, ?Eb, ?Ec, ?Ed. cbn [bind]. rewrite ?Ena, ?Enb, ?Enc, ?End. cbn [bind]. eexists. split; [reflexivity|]. split; [reflexivity|]. exists [na; nc]. cbn [filter]. rewrite ?Z.eqb_refl, ?Nab, ?Nac, ?Nbc, ?Nba, ?Nca, ?Ncb, ?Nad, ?Nda, ?Nbd, ?Ndb, ?Ncd, ?Ndc. cbn [negb andb mapM]. rewrite ?Ena, ?Enb, ?Enc, ?End. split; [reflexivity|]. eapply perm_trans; [apply perm_skip, perm_swap|]. eapply perm_trans; [apply perm_swap|]. apply perm_skip, perm_swap.
    + assert (u = c) as -> by congruence. assert (v = d) as -> by congruence. cbn [mapM bind]. change (simplex_down_template 3 1 (simplex_opposite_template 3 1 5) 0) with 0. change (simplex_down_template 3 1 (simplex_opposite_template 3 1 5) 1) with 1. rewrite ?Ea, ?Eb, ?Ec, ?Ed. cbn [bind]. rewrite ?Ena, ?Enb, ?Enc, ?End. cbn [bind]. rewrite ?Ea, ?Eb, ?Ec, ?Ed. cbn [bind]. rewrite ?Ena, ?Enb, ?Enc, ?End. cbn [bind]. eexists. split; [reflexivity|]. split; [reflexivity|]. exists [na; nb]. cbn [filter]. rewrite ?Z.eqb_refl, ?Nab, ?Nac, ?Nbc, ?Nba, ?Nca, ?Ncb, ?Nad, ?Nda, ?Nbd, ?Ndb, ?Ncd, ?Ndc. cbn [negb andb mapM]. rewrite ?Ena, ?Enb, ?Enc, ?End. split; [reflexivity|]. apply Permutation_sym. eapply perm_trans; [apply perm_swap | apply perm_skip, perm_swap].
Qed.

(** ** all products *)
Lemma degree_verts d : 1 <= d <= 3 -> simplex_degree d 0 = d + 1.
Proof. intros H. assert (d = 1 \/ d = 2 \/ d = 3) as [->|[->| ->]] by lia; reflexivity. Qed.

Section products.
Variables (mesh_dim : Z) (nents : Z -> Z) (verts : Z -> list Z) (edge_up : Z -> adj) (keys2edges mids old2new : list Z).
Hypothesis Hmesh : split_mesh mesh_dim nents verts edge_up.
Hypothesis Hkeys : forall e, In e keys2edges -> 0 <= e < nents 1.
Hypothesis Hmids : zlen mids = zlen keys2edges.
Hypothesis Hnew : forall d, 1 <= d <= mesh_dim -> forall v, In v (verts d) -> 0 <= v < zlen old2new.

Lemma edge_ends e : In e keys2edges -> exists a b, zget (verts 1) (e * 2 + 0) = Ok a /\ zget (verts 1) (e * 2 + 1) = Ok b.
Proof.
  intros He. pose proof (Hkeys e He). destruct Hmesh as (Hd & Hl & _). pose proof (Hl 1 ltac:(lia)) as L1. destruct (zget_in_range (verts 1) (e * 2 + 0)) as (a & Ea); [lia|]. destruct (zget_in_range (verts 1) (e * 2 + 1)) as (b & Eb); [lia|]. eauto.
Qed.

Lemma group_info d e p : 2 <= d <= mesh_dim -> In e keys2edges -> in_group (adj_a2ab (edge_up d)) e p ->
  exists codes dom code a b vs, adj_codes (edge_up d) = Some codes /\ zget (adj_ab2b (edge_up d)) p = Ok dom /\ zget codes p = Ok code /\
  zget (verts 1) (e * 2 + 0) = Ok a /\ zget (verts 1) (e * 2 + 1) = Ok b /\ verts_of (d + 1) (verts d) dom = Ok vs /\ distinct_verts d (verts d) dom /\ (forall x, In x vs -> 0 <= x < zlen old2new) /\
  0 <= code_which_down code < simplex_degree d 1 /\ 0 <= code_rotation code < 2 /\
  zget (verts d) (dom * (d + 1) + simplex_down_template d 1 (code_which_down code) (Z.lxor (code_rotation code) 0)) = Ok a /\
  zget (verts d) (dom * (d + 1) + simplex_down_template d 1 (code_which_down code) (Z.lxor (code_rotation code) 1)) = Ok b.
Proof.
  intros Hd He Hg. destruct (edge_ends e He) as (a & b & Ea & Eb). destruct Hmesh as (_ & Hl & Hm). destruct (Hm d Hd) as ((W & codes & Ec & HU) & LU & Hdist). pose proof (Hkeys e He) as Be. destruct (HU e a b ltac:(lia) Ea Eb) as [U1 U2]. destruct (U2 p Hg) as (dom & code & Edom & Ecode & C1 & C2 & C3 & C4).
  assert (0 <= dom < nents d) as Bdom.
  { destruct W as (W1 & W2 & W3). destruct (wf_targets (mk_graph (adj_a2ab (edge_up d)) (adj_ab2b (edge_up d))) e) as (ts & Ets); [split; assumption | unfold nnodes; cbn [a2ab]; lia|]. apply (U1 ts Ets). apply targets_split in Ets as (lo & hi & T1 & T2 & T3). cbn [a2ab ab2b] in *. destruct Hg as (lo' & hi' & G1 & G2 & G3). assert (lo' = lo) as -> by congruence. assert (hi' = hi) as -> by congruence. destruct (mapM_in _ _ _ p T3) as (y & Ey & Hy); [apply in_zfromto; exact G3|]. congruence. }
  destruct (mapM_total (fun j => zget (verts d) (dom * (d + 1) + j)) (zrange (d + 1))) as (vs & Evs). { intros j Hj. apply in_zrange in Hj. apply zget_in_range. rewrite (Hl d ltac:(lia)). nia. }
  exists codes, dom, code, a, b, vs. repeat (split; [assumption|]). split; [apply Hdist, Bdom|]. split; [|auto]. intros x Hx. destruct (mapM_in_inv _ _ _ _ Evs Hx) as (j & Ej & _). apply (Hnew d ltac:(lia)). eapply zget_In, Ej.
Qed.

Lemma targets_group d e doms : 2 <= d <= mesh_dim -> adj_targets (edge_up d) e = Ok doms -> exists lo hi, zget (adj_a2ab (edge_up d)) e = Ok lo /\ zget (adj_a2ab (edge_up d)) (e + 1) = Ok hi /\ mapM (zget (adj_ab2b (edge_up d))) (zfromto lo hi) = Ok doms /\ forall p, In p (zfromto lo hi) -> in_group (adj_a2ab (edge_up d)) e p.
Proof.
  intros _ E. apply targets_split in E as (lo & hi & T1 & T2 & T3). cbn [a2ab ab2b] in *. exists lo, hi. repeat (split; [assumption|]). intros p Hp. apply in_zfromto in Hp. exists lo, hi. auto.
Qed.

Lemma pairs_at d : 2 <= d <= mesh_dim -> exists L, refine_domains_to_pairs d (verts 1) (verts d) (edge_up d) keys2edges mids old2new = Ok (offset_scan (map zlen L), flat (d + 1) L) /\ zlen L = zlen keys2edges /\
  (forall ts, In ts L -> forall t, In t ts -> zlen t = d + 1) /\
  forall key e a b m doms, zget keys2edges key = Ok e -> zget (verts 1) (e * 2 + 0) = Ok a -> zget (verts 1) (e * 2 + 1) = Ok b -> zget mids key = Ok m -> adj_targets (edge_up d) e = Ok doms ->
  exists ps, nth_error L (Z.to_nat key) = Some (unpair ps) /\ Forall2 (fun dom p => exists vs, verts_of (d + 1) (verts d) dom = Ok vs /\ In a vs /\ In b vs /\ distinct_verts d (verts d) dom /\ children d old2new vs a b m p) doms ps.
Proof.
  intros Hd. assert (d = 2 \/ d = 3) as Hd' by (destruct Hmesh; lia). pose proof Hmesh as (_ & Hl & Hm). destruct (Hm d Hd) as ((W & codes & Ec & _) & LU & _).
  destruct (pairs_flat d (verts 1) (verts d) (edge_up d) codes keys2edges mids old2new) as (L & E & LL & HW & HR); try assumption; [lia | intros e He; pose proof (Hkeys e He); lia | |].
  { intros e m p dom code eev He _ Hg Edom Ecode Heev. destruct (group_info d e p Hd He Hg) as (codes' & dom' & code' & a & b & vs & I1 & I2 & I3 & I4 & I5 & I6 & I7 & I8 & I9 & I10 & I11 & I12). assert (codes' = codes) as -> by congruence. assert (dom' = dom) as -> by congruence. assert (code' = code) as -> by congruence.
    destruct Heev as [-> | ->]; [destruct (pair_row_ok d (verts d) old2new dom (code_which_down code) (code_rotation code) m 0 a vs) as (row & ch & R1 & R2 & _) | destruct (pair_row_ok d (verts d) old2new dom (code_which_down code) (code_rotation code) m 1 b vs) as (row & ch & R1 & R2 & _)]; auto; eauto. }
  exists L. split; [exact E|]. split; [exact LL|]. split; [exact HW|]. intros key e a b m doms Ee Ea Eb Em Edoms. destruct (targets_group d e doms Hd Edoms) as (lo & hi & T1 & T2 & T3 & T4). destruct (HR key e m lo hi Ee Em T1 T2) as (ps & P1 & P2). exists ps. split; [exact P1|].
  assert (In e keys2edges) as He by (eapply zget_In, Ee). clear - Hd Hd' T3 T4 P2 He Hmesh Hkeys Hnew Ea Eb Ec. revert doms ps T3 P2. induction (zfromto lo hi) as [|p l IH]; intros doms ps T3 P2; cbn [mapM] in T3, P2; [injection T3 as <-; injection P2 as <-; constructor|].
  apply bind_ok in T3 as (dom & Edom & T3). apply bind_ok in T3 as (doms' & T3 & Et). injection Et as <-. rewrite Edom in P2. cbn [bind] in P2. apply bind_ok in P2 as (pr & Epr & P2). apply bind_ok in P2 as (ps' & P2 & Ep). injection Ep as <-. constructor; [|apply IH; [intros q Hq; apply T4; right; exact Hq | assumption | assumption]].
  destruct (group_info d e p Hd He (T4 p (or_introl eq_refl))) as (codes' & dom' & code' & a' & b' & vs & I1 & I2 & I3 & I4 & I5 & I6 & I7 & I8 & I9 & I10 & I11 & I12). assert (codes' = codes) as -> by congruence. assert (dom' = dom) as -> by congruence. assert (a' = a) as -> by congruence. assert (b' = b) as -> by congruence.
  rewrite I3 in Epr. cbn [bind] in Epr. apply bind_ok in Epr as (r0 & R0 & Epr). apply bind_ok in Epr as (r1 & R1 & Epr). injection Epr as <-. exists vs. split; [exact I6|].
  assert (forall j x, 0 <= j <= d -> zget (verts d) (dom * (d + 1) + j) = Ok x -> In x vs) as Hin. { intros j x Hj Ex. destruct (mapM_in _ _ _ j I6) as (y & Ey & Hy); [apply in_zrange; lia|]. congruence. }
  assert (forall w r, 0 <= w < simplex_degree d 1 -> r = 0 \/ r = 1 -> 0 <= simplex_down_template d 1 w r <= d) as Ht. { intros w r Hw Hr. destruct Hd' as [-> | ->]; [change (simplex_degree 2 1) with 3 in Hw; assert (w = 0 \/ w = 1 \/ w = 2) as [->|[->| ->]] by lia | change (simplex_degree 3 1) with 6 in Hw; assert (w = 0 \/ w = 1 \/ w = 2 \/ w = 3 \/ w = 4 \/ w = 5) as [->|[->|[->|[->|[->| ->]]]]] by lia]; destruct Hr as [-> | ->]; vm_compute; split; congruence. }
  assert (Z.lxor (code_rotation code') 0 = 0 \/ Z.lxor (code_rotation code') 0 = 1) as X0 by (assert (code_rotation code' = 0 \/ code_rotation code' = 1) as [-> | ->] by lia; cbn; auto). assert (Z.lxor (code_rotation code') 1 = 0 \/ Z.lxor (code_rotation code') 1 = 1) as X1 by (assert (code_rotation code' = 0 \/ code_rotation code' = 1) as [-> | ->] by lia; cbn; auto).
  split; [eapply Hin; [apply Ht; [exact I9 | exact X0] | exact I11]|]. split; [eapply Hin; [apply Ht; [exact I9 | exact X1] | exact I12]|]. split; [exact I7|].
  destruct (pair_row_ok d (verts d) old2new dom (code_which_down code') (code_rotation code') m 0 a vs) as (row0 & ch0 & A1 & A2 & A3 & A4); auto. destruct (pair_row_ok d (verts d) old2new dom (code_which_down code') (code_rotation code') m 1 b vs) as (row1 & ch1 & B1 & B2 & B3 & B4); auto.
  assert (row0 = r0) as -> by congruence. assert (row1 = r1) as -> by congruence. exists ch0, ch1. auto.
Qed.

Lemma cuts_at d : 2 <= d <= mesh_dim -> exists L, refine_domains_to_cuts d (verts d) (edge_up d) keys2edges mids old2new = Ok (offset_scan (map zlen L), flat d L) /\ zlen L = zlen keys2edges /\
  (forall ts, In ts L -> forall t, In t ts -> zlen t = d) /\
  forall key e a b m doms, zget keys2edges key = Ok e -> zget (verts 1) (e * 2 + 0) = Ok a -> zget (verts 1) (e * 2 + 1) = Ok b -> zget mids key = Ok m -> adj_targets (edge_up d) e = Ok doms ->
  exists cs, nth_error L (Z.to_nat key) = Some cs /\ Forall2 (fun dom c => exists vs, verts_of (d + 1) (verts d) dom = Ok vs /\ separator old2new vs a b m c) doms cs.
Proof.
  intros Hd. assert (d = 2 \/ d = 3) as Hd' by (destruct Hmesh; lia). pose proof Hmesh as (_ & Hl & Hm). destruct (Hm d Hd) as ((W & codes & Ec & _) & LU & _).
  destruct (cuts_flat d (verts d) (edge_up d) codes keys2edges mids old2new) as (L & E & LL & HW & HR); try assumption; [lia | intros e He; pose proof (Hkeys e He); lia | |].
  { intros e m p dom code He _ Hg Edom Ecode. destruct (group_info d e p Hd He Hg) as (codes' & dom' & code' & a & b & vs & I1 & I2 & I3 & I4 & I5 & I6 & I7 & I8 & I9 & I10 & I11 & I12). assert (codes' = codes) as -> by congruence. assert (dom' = dom) as -> by congruence. assert (code' = code) as -> by congruence.
    destruct (cut_row_ok d (verts d) old2new dom (code_which_down code) (code_rotation code) m a b vs) as (row & R1 & R2 & _); auto; eauto. }
  exists L. split; [exact E|]. split; [exact LL|]. split; [exact HW|]. intros key e a b m doms Ee Ea Eb Em Edoms. destruct (targets_group d e doms Hd Edoms) as (lo & hi & T1 & T2 & T3 & T4). destruct (HR key e m lo hi Ee Em T1 T2) as (cs & P1 & P2). exists cs. split; [exact P1|].
  assert (In e keys2edges) as He by (eapply zget_In, Ee). clear - Hd Hd' T3 T4 P2 He Hmesh Hkeys Hnew Ea Eb Ec. revert doms cs T3 P2. induction (zfromto lo hi) as [|p l IH]; intros doms cs T3 P2; cbn [mapM] in T3, P2; [injection T3 as <-; injection P2 as <-; constructor|].
  apply bind_ok in T3 as (dom & Edom & T3). apply bind_ok in T3 as (doms' & T3 & Et). injection Et as <-. rewrite Edom in P2. cbn [bind] in P2. apply bind_ok in P2 as (pr & Epr & P2). apply bind_ok in P2 as (ps' & P2 & Ep). injection Ep as <-. constructor; [|apply IH; [intros q Hq; apply T4; right; exact Hq | assumption | assumption]].
  destruct (group_info d e p Hd He (T4 p (or_introl eq_refl))) as (codes' & dom' & code' & a' & b' & vs & I1 & I2 & I3 & I4 & I5 & I6 & I7 & I8 & I9 & I10 & I11 & I12). assert (codes' = codes) as -> by congruence. assert (dom' = dom) as -> by congruence. assert (a' = a) as -> by congruence. assert (b' = b) as -> by congruence.
  rewrite I3 in Epr. cbn [bind] in Epr. exists vs. split; [exact I6|]. destruct (cut_row_ok d (verts d) old2new dom (code_which_down code') (code_rotation code') m a b vs) as (row & R1 & R2 & R3); auto. congruence.
Qed.

Lemma edges_at : exists L, refine_domains_to_pairs 1 (verts 1) (verts 1) (edge_up 1) keys2edges mids old2new = Ok (offset_scan (map zlen L), flat 2 L) /\ zlen L = zlen keys2edges /\
  (forall ts, In ts L -> forall t, In t ts -> zlen t = 2) /\
  forall key e a b m, zget keys2edges key = Ok e -> zget (verts 1) (e * 2 + 0) = Ok a -> zget (verts 1) (e * 2 + 1) = Ok b -> zget mids key = Ok m ->
  exists a' b', zget old2new a = Ok a' /\ zget old2new b = Ok b' /\ nth_error L (Z.to_nat key) = Some [[a'; m]; [m; b']].
Proof.
  set (h := fun key => edge <- zget keys2edges key ;; midvert <- zget mids key ;; v0 <- zget (verts 1) (edge * 2 + 0) ;; n0 <- zget old2new v0 ;; v1 <- zget (verts 1) (edge * 2 + 1) ;; n1 <- zget old2new v1 ;; Ok [[n0; midvert]; [midvert; n1]]).
  destruct Hmesh as (Hdim & _).
  assert (forall key, 0 <= key < zlen keys2edges -> exists e a b m a' b', zget keys2edges key = Ok e /\ zget (verts 1) (e * 2 + 0) = Ok a /\ zget (verts 1) (e * 2 + 1) = Ok b /\ zget mids key = Ok m /\ zget old2new a = Ok a' /\ zget old2new b = Ok b' /\ h key = Ok [[a'; m]; [m; b']]) as HH.
  { intros key Hkey. destruct (zget_in_range keys2edges key Hkey) as (e & Ee). destruct (zget_in_range mids key) as (m & Em); [lia|]. destruct (edge_ends e (zget_In _ _ _ Ee)) as (a & b & Ea & Eb). destruct (zget_in_range old2new a) as (a' & Ea'); [apply (Hnew 1); [lia | eapply zget_In, Ea]|]. destruct (zget_in_range old2new b) as (b' & Eb'); [apply (Hnew 1); [lia | eapply zget_In, Eb]|].
    exists e, a, b, m, a', b'. repeat (split; [assumption|]). unfold h. rewrite Ee. cbn [bind]. rewrite Em. cbn [bind]. rewrite Ea. cbn [bind]. rewrite Ea'. cbn [bind]. rewrite Eb. cbn [bind]. rewrite Eb'. reflexivity. }
  destruct (mapM_total h (zrange (zlen keys2edges))) as (L & EL). { intros key Hkey. apply in_zrange in Hkey. destruct (HH key Hkey) as (e & a & b & m & a' & b' & _ & _ & _ & _ & _ & _ & E). eauto. }
  assert (zlen L = zlen keys2edges) as LL. { unfold zlen. rewrite (mapM_length _ _ _ EL), zrange_length. unfold zlen. lia. }
  assert (forall rows, In rows L -> exists x y z, rows = [[x; y]; [y; z]]) as Hrows. { intros rows Hr. destruct (mapM_in_inv _ _ _ _ EL Hr) as (key & Ek & Hk). apply in_zrange in Hk. destruct (HH key Hk) as (e & a & b & m & a' & b' & _ & _ & _ & _ & _ & _ & E). exists a', m, b'. congruence. }
  exists L. split; [|split; [exact LL|split]].
  - unfold refine_domains_to_pairs. cbn [negb]. change (negb (0 <? 1)) with false. cbv iota. change (1 =? 1) with true. cbv iota. unfold refine_edges_to_pairs.
    assert (tabulate (zlen keys2edges) (fun key => edge <- zget keys2edges key ;; midvert <- zget mids key ;; v0 <- zget (verts 1) (edge * 2 + 0) ;; n0 <- zget old2new v0 ;; v1 <- zget (verts 1) (edge * 2 + 1) ;; n1 <- zget old2new v1 ;; Ok [n0; midvert; midvert; n1]) = Ok (map (@concat Z) L)) as ->.
    { unfold tabulate. clear - EL. revert L EL. induction (zrange (zlen keys2edges)) as [|k l IH]; intros L E; cbn [mapM] in E |- *; [injection E as <-; reflexivity|]. apply bind_ok in E as (r & Er & E). apply bind_ok in E as (L' & EL & E). injection E as <-. rewrite (IH L' EL). unfold h in Er. apply bind_ok in Er as (x1 & -> & Er). cbn [bind]. apply bind_ok in Er as (x2 & -> & Er). cbn [bind]. apply bind_ok in Er as (x3 & -> & Er). cbn [bind]. apply bind_ok in Er as (x4 & -> & Er). cbn [bind]. apply bind_ok in Er as (x5 & -> & Er). cbn [bind]. apply bind_ok in Er as (x6 & -> & Er). cbn [bind]. injection Er as <-. reflexivity. }
    cbn [bind]. f_equal. f_equal. assert (map zlen L = map (fun x => x * 2) (map (fun _ => 1) L)) as ->. { rewrite map_map. apply map_ext_in. intros r Hr. destruct (Hrows r Hr) as (x & y & z & ->). reflexivity. }
    rewrite scan_scaled. apply list_eq_zget; [rewrite !zlen_map, zlen_zrange, offset_scan_length, zlen_map by (pose proof (zlen_nonneg keys2edges); lia); lia|]. intros i Hi. rewrite zlen_map, zlen_zrange in Hi by (pose proof (zlen_nonneg keys2edges); lia).
    rewrite !zget_map, offset_scan_get by (rewrite zlen_map; lia). rewrite zget_zrange by lia. cbn [bind]. f_equal. rewrite Z.add_0_l. f_equal. rewrite firstn_map. assert (length (firstn (Z.to_nat i) L) = Z.to_nat i) as Hlen by (apply firstn_length_le; unfold zlen in *; lia). clear - Hlen Hi. assert (zsum (map (fun _ : list (list Z) => 1) (firstn (Z.to_nat i) L)) = Z.of_nat (length (firstn (Z.to_nat i) L))) as ->; [|lia]. generalize (firstn (Z.to_nat i) L). intros l. induction l as [|x l IH]; [reflexivity|]. cbn [map length]. change (zsum (1 :: map (fun _ : list (list Z) => 1) l)) with (1 + zsum (map (fun _ : list (list Z) => 1) l)). rewrite IH. lia.
  - intros ts Hts t Ht. destruct (Hrows ts Hts) as (x & y & z & ->). destruct Ht as [<-|[<-|[]]]; reflexivity.
  - intros key e a b m Ee Ea Eb Em. destruct (HH key (zget_bounds _ _ _ Ee)) as (e' & a0 & b0 & m' & a' & b' & F1 & F2 & F3 & F4 & F5 & F6 & F7). assert (e' = e) as -> by congruence. assert (a0 = a) as -> by congruence. assert (b0 = b) as -> by congruence. assert (m' = m) as -> by congruence. exists a', b'. split; [exact F5|]. split; [exact F6|].
    pose proof (zget_bounds _ _ _ Ee) as Bk. assert (nth_error (zrange (zlen keys2edges)) (Z.to_nat key) = Some key) as Ej. { rewrite zrange_nth by lia. f_equal. lia. } destruct (nth_error_mapM _ _ _ _ _ EL Ej) as (y & Ny & Gy). congruence.
Qed.

Lemma products_flat ent_dim : 1 <= ent_dim <= mesh_dim -> exists L, refine_products mesh_dim ent_dim verts edge_up keys2edges mids old2new = Ok (offset_scan (map zlen L), flat (ent_dim + 1) L) /\
  zlen L = zlen keys2edges /\ (forall ts, In ts L -> forall t, In t ts -> zlen t = ent_dim + 1) /\
  forall key e a b m, zget keys2edges key = Ok e -> zget (verts 1) (e * 2 + 0) = Ok a -> zget (verts 1) (e * 2 + 1) = Ok b -> zget mids key = Ok m ->
  exists pairs cuts, nth_error L (Z.to_nat key) = Some (pairs ++ cuts) /\
  (if ent_dim =? 1 then exists a' b', zget old2new a = Ok a' /\ zget old2new b = Ok b' /\ pairs = [[a'; m]; [m; b']]
   else exists doms ps, adj_targets (edge_up ent_dim) e = Ok doms /\ pairs = unpair ps /\
     Forall2 (fun dom p => exists vs, verts_of (ent_dim + 1) (verts ent_dim) dom = Ok vs /\ children ent_dim old2new vs a b m p) doms ps) /\
  (if ent_dim =? mesh_dim then cuts = []
   else exists doms, adj_targets (edge_up (ent_dim + 1)) e = Ok doms /\
     Forall2 (fun dom c => exists vs, verts_of (ent_dim + 1 + 1) (verts (ent_dim + 1)) dom = Ok vs /\ separator old2new vs a b m c) doms cuts).
Proof.
  intros He.
  assert (forall d e, 2 <= d <= mesh_dim -> In e keys2edges -> exists doms, adj_targets (edge_up d) e = Ok doms) as HT.
  { intros d e Hd Hi. destruct Hmesh as (_ & _ & Hm). destruct (Hm d Hd) as ((W & _) & LU & _). apply wf_targets; [destruct W as (W1 & W2 & _); split; assumption|]. unfold nnodes. cbn [a2ab]. rewrite LU. pose proof (Hkeys e Hi). lia. }
  assert (exists Lp, refine_domains_to_pairs ent_dim (verts 1) (verts ent_dim) (edge_up ent_dim) keys2edges mids old2new = Ok (offset_scan (map zlen Lp), flat (ent_dim + 1) Lp) /\ zlen Lp = zlen keys2edges /\
    (forall ts, In ts Lp -> forall t, In t ts -> zlen t = ent_dim + 1) /\
    forall key e a b m, zget keys2edges key = Ok e -> zget (verts 1) (e * 2 + 0) = Ok a -> zget (verts 1) (e * 2 + 1) = Ok b -> zget mids key = Ok m ->
    exists pairs, nth_error Lp (Z.to_nat key) = Some pairs /\
    (if ent_dim =? 1 then exists a' b', zget old2new a = Ok a' /\ zget old2new b = Ok b' /\ pairs = [[a'; m]; [m; b']]
     else exists doms ps, adj_targets (edge_up ent_dim) e = Ok doms /\ pairs = unpair ps /\
     Forall2 (fun dom p => exists vs, verts_of (ent_dim + 1) (verts ent_dim) dom = Ok vs /\ children ent_dim old2new vs a b m p) doms ps)) as (Lp & Ep & LLp & HWp & HPp).
  { destruct (Z.eqb_spec ent_dim 1) as [->|Hne].
    - destruct edges_at as (L & A1 & A2 & A3 & A4). exists L. repeat (split; [assumption|]). intros key e a b m Ee Ea Eb Em. destruct (A4 key e a b m Ee Ea Eb Em) as (a' & b' & B1 & B2 & B3). exists [[a'; m]; [m; b']]. split; [exact B3|]. eauto.
    - destruct (pairs_at ent_dim) as (L & A1 & A2 & A3 & A4); [lia|]. exists L. repeat (split; [assumption|]). intros key e a b m Ee Ea Eb Em. destruct (HT ent_dim e) as (doms & Ed); [lia | eapply zget_In, Ee |]. destruct (A4 key e a b m doms Ee Ea Eb Em Ed) as (ps & B1 & B2). exists (unpair ps). split; [exact B1|]. exists doms, ps. split; [exact Ed|]. split; [reflexivity|]. eapply Forall2_weaken; [|exact B2]. intros dom p (vs & V1 & _ & _ & _ & V2). eauto. }
  unfold refine_products. rewrite Ep. cbn [bind]. destruct (Z.eqb_spec ent_dim mesh_dim) as [Hm|Hm].
  - exists Lp. split; [reflexivity|]. split; [exact LLp|]. split; [exact HWp|]. intros key e a b m Ee Ea Eb Em. destruct (HPp key e a b m Ee Ea Eb Em) as (pairs & N & HP). exists pairs, []. rewrite app_nil_r. auto.
  - destruct (cuts_at (ent_dim + 1)) as (Lc & Ec & LLc & HWc & HPc); [lia|]. rewrite Ec. cbn [bind fst snd]. destruct (combine_flat ent_dim (ent_dim + 1) Lc Lp) as [EC HZ]; try assumption; [lia | apply degree_verts; destruct Hmesh; lia | congruence |]. rewrite EC. exists (zipw Lp Lc). split; [reflexivity|]. split; [unfold zlen in *; rewrite zipw_len by lia; lia|]. split; [exact HZ|].
    intros key e a b m Ee Ea Eb Em. destruct (HPp key e a b m Ee Ea Eb Em) as (pairs & N & HP). destruct (HT (ent_dim + 1) e) as (doms & Ed); [lia | eapply zget_In, Ee |]. destruct (HPc key e a b m doms Ee Ea Eb Em Ed) as (cs & N2 & HC).
    exists pairs, cs. split; [exact (zipw_nth _ _ _ _ _ N N2)|]. split; [exact HP|]. exists doms. auto.
Qed.
Lemma products_ok ent_dim : 1 <= ent_dim <= mesh_dim -> exists k2p pv, refine_products mesh_dim ent_dim verts edge_up keys2edges mids old2new = Ok (k2p, pv) /\
  forall key e a b m, zget keys2edges key = Ok e -> zget (verts 1) (e * 2 + 0) = Ok a -> zget (verts 1) (e * 2 + 1) = Ok b -> zget mids key = Ok m ->
  exists lo hi pairs cuts, zget k2p key = Ok lo /\ zget k2p (key + 1) = Ok hi /\ ents_between (ent_dim + 1) pv lo hi = Ok (pairs ++ cuts) /\
  (if ent_dim =? 1 then exists a' b', zget old2new a = Ok a' /\ zget old2new b = Ok b' /\ pairs = [[a'; m]; [m; b']]
   else exists doms ps, adj_targets (edge_up ent_dim) e = Ok doms /\ pairs = unpair ps /\
     Forall2 (fun dom p => exists vs, verts_of (ent_dim + 1) (verts ent_dim) dom = Ok vs /\ children ent_dim old2new vs a b m p) doms ps) /\
  (if ent_dim =? mesh_dim then cuts = []
   else exists doms, adj_targets (edge_up (ent_dim + 1)) e = Ok doms /\
     Forall2 (fun dom c => exists vs, verts_of (ent_dim + 1 + 1) (verts (ent_dim + 1)) dom = Ok vs /\ separator old2new vs a b m c) doms cuts).
Proof.
  intros He. destruct (products_flat ent_dim He) as (L & E & LL & HW & HP). eexists _, _. split; [exact E|]. intros key e a b m Ee Ea Eb Em. destruct (HP key e a b m Ee Ea Eb Em) as (pairs & cuts & N & H1 & H2).
  destruct (flat_ents (ent_dim + 1) L (Z.to_nat key) (pairs ++ cuts) ltac:(lia) HW N) as (lo & hi & F1 & F2 & F3). pose proof (zget_bounds _ _ _ Ee) as Bk. rewrite Z2Nat.id in F1, F2 by lia. exists lo, hi, pairs, cuts. auto.
Qed.
End products.
