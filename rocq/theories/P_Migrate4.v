From Verif Require Import Prelude M_Array M_Par M_Scan S_Scan M_Sort S_Sort M_Map S_Map M_Tags P_Tags M_Template M_Dist S_Dist M_Owners S_Owners P_Array P_Scan P_Map P_Map2 P_Fan P_Invert P_Dist P_Dist2 P_Dist3 P_Dist4 P_Dist5 P_Dist6 P_Link P_Link2 P_Owners M_Migrate S_Migrate P_Migrate P_Migrate2 P_Migrate3.
Local Open Scope Z_scope.

Lemma block_index deg x n : 0 < deg -> 0 <= x < n * deg -> exists c k, x = c * deg + k /\ 0 <= k < deg /\ 0 <= c < n.
Proof.
  intros Hd Hx. exists (x / deg), (x mod deg). pose proof (Z.div_mod x deg ltac:(lia)). pose proof (Z.mod_pos_bound x deg Hd). split; [nia|]. split; [lia|]. split; [apply Z.div_pos; lia|].
  apply Z.div_lt_upper_bound; lia.
Qed.
Lemma block_unique deg c k c' k' : 0 <= k < deg -> 0 <= k' < deg -> c * deg + k = c' * deg + k' -> c = c' /\ k = k'.
Proof. intros H1 H2 E. assert (c = c') by nia. subst. lia. Qed.

Lemma find_dtag_in tags t : NoDup (map dt_name tags) -> In t tags -> find_dtag tags (dt_name t) = Some t.
Proof.
  intros N I. unfold find_dtag. induction tags as [|u tags IH]; [destruct I|]. cbn in N |- *. inversion N as [|? ? Nu Nt]; subst. destruct I as [<-|I]; [rewrite same_name_refl; reflexivity|].
  destruct (same_name (dt_name u) (dt_name t)) eqn:E; [|apply IH; assumption]. apply same_name_spec in E. destruct Nu. rewrite E. apply in_map, I.
Qed.
Lemma has_dtag_in tags name : has_dtag tags name = true <-> In name (map dt_name tags).
Proof.
  unfold has_dtag, find_dtag. split.
  - destruct (find _ tags) as [t|] eqn:E; [|discriminate]. intros _. apply List.find_some in E as [I E]. apply same_name_spec in E as <-. apply in_map, I.
  - intros I. apply in_map_iff in I as (t & <- & I). destruct (find _ tags) as [u|] eqn:E; [reflexivity|]. pose proof (List.find_none _ _ E t I) as H. cbv beta in H. rewrite same_name_refl in H. discriminate.
Qed.

(** data of the places, seen from the copies *)
Lemma link_delivers new cn src nroots : link new cn (map (map fst) src) (map (map snd) src) nroots ->
  forall A (data : list (list A)) width, 0 < width -> data_per_root nroots data width -> exists out, exch (invert new) data width = Ok out /\ delivered src data out width.
Proof.
  intros K A data width Hw Dd. destruct (link_returns _ _ _ _ _ K A data width Hw Dd) as (out & E & [L1 L2] & G). exists out. split; [exact E|]. rewrite zlen_map in L1. split; [exact L1|].
  intros r w y Hr Hy. split; [rewrite (L2 r (map fst w) y) by (try apply zget_map_ok; assumption); rewrite zlen_map; reflexivity|].
  intros c s i x Hc Hx. apply (G r c s i x y); auto.
  - exists (map fst w). split; [apply zget_map_ok; exact Hr|]. rewrite (zget_map_ok _ _ _ _ Hc). reflexivity.
  - exists (map snd w). split; [apply zget_map_ok; exact Hr|]. rewrite (zget_map_ok _ _ _ _ Hc). reflexivity.
Qed.

Lemma copy_ranks src s c r q : copy_of src s c r q <-> owner_is (map (map fst) src) (map (map snd) src) s c r q.
Proof.
  split.
  - intros (l & Hl & Hc). split; [exists (map fst l)|exists (map snd l)]; (split; [apply zget_map_ok; exact Hl|]; rewrite (zget_map_ok _ _ _ _ Hc); reflexivity).
  - intros [(a & Ha & Hr) (b & Hb & Hq)]. apply zget_map_inv in Ha as (l & Hl & ->). apply zget_map_inv in Hb as (l' & Hl' & ->). assert (l' = l) as -> by congruence.
    apply zget_map_inv in Hr as ([r1 q1] & H1 & ->). apply zget_map_inv in Hq as ([r2 q2] & H2 & ->). exists l. split; [exact Hl|]. cbn in *. congruence.
Qed.
Lemma copy_fun src s c r q r' q' : copy_of src s c r q -> copy_of src s c r' q' -> r = r' /\ q = q'.
Proof. intros (l & Hl & H) (l' & Hl' & H'). assert (l' = l) as -> by congruence. split; congruence. Qed.

Section down.
Context (inv : Z -> list Z -> Z -> res (list Z * list Z)) (nranks deg : Z) (high low : dents) (new : list dist) (cn : Z -> Z -> Z) (hsrc : list (list (Z * Z))).
Hypothesis Hinv : inverter inv.
Hypothesis Hdeg : 0 < deg.
Hypothesis fits : nranks <= i32_max + 1.
Hypothesis Sh : sound_level nranks high.
Hypothesis Sl : sound_level nranks low.
Hypothesis Sd : sound_sides deg high low.
Hypothesis K : link new cn (map (map fst) hsrc) (map (map snd) hsrc) (de_nents high).

Lemma hsrc_len : zlen hsrc = nranks.
Proof. destruct (k_addr _ _ _ _ _ K) as (_ & A & _). rewrite zlen_map in A. rewrite <- A. apply (l_nranks _ _ Sh). Qed.
Lemma copy_range s c r q : copy_of hsrc s c r q -> exists n, zget (de_nents high) r = Ok n /\ 0 <= q < n.
Proof. intros H. apply copy_ranks in H as [H1 H2]. destruct (k_addr _ _ _ _ _ K) as (_ & _ & _ & _ & A). exact (A s c r q H1 H2). Qed.

Lemma down_uses x : data_per_root (de_nents low) x 1 -> exists y, on_ranks (de_down high) (fun r uses2lows => x <- zget x r ;; unmap uses2lows x 1) = Ok y /\
  data_per_root (de_nents high) y deg /\ forall s c t, goes_to y s c t <-> exists l, goes_to (de_down high) s c l /\ goes_to x s l t.
Proof.
  intros [Lx Hx]. destruct (d_size _ _ _ Sd) as [Ld Hd]. pose proof (l_nranks _ _ Sh) as Lh. pose proof (l_nranks _ _ Sl) as Ll. unfold on_ranks.
  destruct (tabulate_rel (zlen (de_down high)) (fun r => a <- zget (de_down high) r ;; x <- zget x r ;; unmap a x 1)
    (fun r y => exists a b, zget (de_down high) r = Ok a /\ zget x r = Ok b /\ zlen y = zlen a /\ forall c l, zget a c = Ok l -> zget y c = zget b l /\ 0 <= l < zlen b)) as (y & Ey & Ly & Gy); [apply zlen_nonneg| |].
  { intros r Hr. destruct (zget_in_range (de_down high) r Hr) as (a & Ha). destruct (zget_in_range x r ltac:(lia)) as (b & Hb). destruct (zget_in_range (de_nents low) r ltac:(lia)) as (k & Hk).
    rewrite Ha, Hb. cbn [bind].
    assert (forall l, In l a -> 0 <= l < zlen b) as Ra.
    { intros l Il. apply P_Map.In_zget in Il as (c & Hc). destruct (d_range _ _ _ Sd r c l) as (n & Hn & Bl); [exists a; auto|]. rewrite (Hx r k b Hk Hb). assert (n = k) by congruence. lia. }
    destruct (unmap_spec a b 1 ltac:(lia)) as (y & Ey & Ly & Gy); [intros l Il; specialize (Ra l Il); lia|]. exists y. split; [exact Ey|]. exists a, b. split; [first [exact Ha|reflexivity]|]. split; [first [exact Hb|reflexivity]|]. split; [lia|].
    intros c l Hc. split; [|apply Ra; eapply zget_In; eauto]. specialize (Gy c l 0 Hc ltac:(lia)). rewrite !Z.mul_1_r, !Z.add_0_r in Gy. exact Gy. }
  exists y. split; [exact Ey|]. split.
  { split; [lia|]. intros r k z Hk Hz. destruct (Gy r z Hz) as (a & b & Ha & _ & Lz & _). rewrite Lz. eauto. }
  intros s c t. split.
  - intros (z & Hz & Hc). destruct (Gy s z Hz) as (a & b & Ha & Hb & Lz & G). destruct (zget_in_range a c) as (l & Hl); [rewrite <- Lz; eapply zget_bounds; eauto|].
    destruct (G c l Hl) as [E _]. exists l. split; [exists a; auto|exists b; split; [exact Hb|congruence]].
  - intros (l & (a & Ha & Hl) & (b & Hb & Hbl)). destruct (zget_in_range y s) as (z & Hz); [rewrite Ly; eapply zget_bounds; eauto|]. destruct (Gy s z Hz) as (a' & b' & Ha' & Hb' & Lz & G).
    assert (a' = a) as -> by congruence. assert (b' = b) as -> by congruence. exists z. split; [exact Hz|]. destruct (G c l Hl) as [-> _]. exact Hbl.
Qed.

Lemma sent_uses x y : data_per_root (de_nents high) x deg -> delivered hsrc x y deg ->
  forall s c v, goes_to y s c v <-> exists h k r q, c = h * deg + k /\ 0 <= k < deg /\ copy_of hsrc s h r q /\ goes_to x r (q * deg + k) v.
Proof.
  intros [Lx Hx] [Ly Gy] s c v. pose proof (l_nranks _ _ Sh) as Lh. split.
  - intros (b & Hb & Hc). destruct (zget_in_range hsrc s) as (l & Hl); [rewrite <- Ly; eapply zget_bounds; eauto|]. destruct (Gy s l b Hl Hb) as [Lb Gb].
    destruct (block_index deg c (zlen l) Hdeg) as (h & k & -> & Bk & Bh); [rewrite <- Lb; eapply zget_bounds; eauto|]. destruct (zget_in_range l h Bh) as ([r q] & Hh).
    assert (copy_of hsrc s h r q) as Hc' by (exists l; auto). destruct (copy_range s h r q Hc') as (n & Hn & Bq). destruct (zget_in_range x r) as (a & Ha); [rewrite Lx; eapply zget_bounds; eauto|].
    destruct (Gb h r q a Hh Ha k Bk) as (v' & V1 & V2). exists h, k, r, q. split; [reflexivity|]. split; [exact Bk|]. split; [exact Hc'|]. exists a. split; [exact Ha|congruence].
  - intros (h & k & r & q & -> & Bk & (l & Hl & Hh) & (a & Ha & Hv)). destruct (zget_in_range y s) as (b & Hb); [rewrite Ly; eapply zget_bounds; eauto|]. destruct (Gy s l b Hl Hb) as [Lb Gb].
    destruct (Gb h r q a Hh Ha k Bk) as (v' & V1 & V2). exists b. split; [exact Hb|congruence].
Qed.

Lemma push_down_ok : exists conn codes nl cl lsrc, push_down inv deg high low (invert new) = Ok (conn, codes, invert nl) /\
  link nl cl (map (map fst) lsrc) (map (map snd) lsrc) (de_nents low) /\ lows_of deg high low hsrc lsrc /\
  data_per_root (map zlen hsrc) conn deg /\
  (forall s c r q k t j, copy_of hsrc s c r q -> side_owner deg high low r q k t j -> exists x, goes_to conn s (c * deg + k) x /\ copy_of lsrc s x t j) /\
  match de_codes high, codes with
  | Some x, Some x' => delivered hsrc x x' deg
  | None, None => True
  | _, _ => False
  end.
Proof.
  pose proof (l_nranks _ _ Sh) as Lh. pose proof (l_nranks _ _ Sl) as Ll. destruct (l_owners _ _ Sl) as (A1 & A2 & A3 & A4 & A5). pose proof (l_size _ _ Sl) as Sr.
  assert (data_per_root (de_nents low) (de_idxs low) 1) as Si.
  { split; [lia|]. intros r k x Hk Hx. destruct (zget_in_range (de_ranks low) r) as (a & Ha); [rewrite <- A2; eapply zget_bounds; eauto|]. rewrite (A3 r a x Ha Hx). exact (proj2 Sr r k a Hk Ha). }
  destruct (down_uses (de_ranks low) Sr) as (ur & Eur & Dur & Gur). destruct (down_uses (de_idxs low) Si) as (ui & Eui & Dui & Gui).
  destruct (link_delivers new cn hsrc _ K _ ur deg Hdeg Dur) as (nr & Enr & Dnr). destruct (link_delivers new cn hsrc _ K _ ui deg Hdeg Dui) as (ni & Eni & Dni).
  pose proof (sent_uses ur nr Dur Dnr) as Gnr. pose proof (sent_uses ui ni Dui Dni) as Gni. pose proof hsrc_len as Lhs.
  assert (zlen nr = nranks) as Lnr by (destruct Dnr as [E _]; lia). assert (zlen ni = nranks) as Lni by (destruct Dni as [E _]; lia).
  (* the owners of the uses *)
  assert (forall s x t j, owner_is nr ni s x t j <-> exists c k r q, x = c * deg + k /\ copy_of hsrc s c r q /\ side_owner deg high low r q k t j) as Ow.
  { intros s x t j. split.
    - intros [H1 H2]. apply Gnr in H1 as (c & k & r & q & Ex & Bk & Hc & Hu). apply Gni in H2 as (c' & k' & r' & q' & Ex' & Bk' & Hc' & Hu').
      destruct (block_unique deg c k c' k' Bk Bk' ltac:(lia)) as [<- <-]. destruct (copy_fun _ _ _ _ _ _ _ Hc Hc') as [<- <-]. apply Gur in Hu as (l & Hl & Ht). apply Gui in Hu' as (l' & Hl' & Hj).
      pose proof (goes_to_fun _ _ _ _ _ Hl Hl') as <-. exists c, k, r, q. split; [exact Ex|]. split; [exact Hc|]. split; [exact Bk|]. exists l. split; [exact Hl|]. split; assumption.
    - intros (c & k & r & q & -> & Hc & Bk & l & Hl & Ht & Hj). split; [apply Gnr|apply Gni]; exists c, k, r, q; (split; [reflexivity|]); (split; [exact Bk|]); (split; [exact Hc|]); [apply Gur|apply Gui]; eauto. }
  assert (ranks_exist nr) as Rnr.
  { intros s x t H. apply Gnr in H as (c & k & r & q & _ & _ & _ & Hu). apply Gur in Hu as (l & _ & Ht). rewrite Lnr. pose proof (l_exist _ _ Sl r l t Ht). lia. }
  assert (addressed nr ni (de_nents low)) as Anr.
  { split; [lia|]. split; [lia|]. split.
    - intros s a b Ha Hb. destruct (zget_in_range hsrc s) as (l & Hl); [rewrite Lhs, <- Lnr; eapply zget_bounds; eauto|]. destruct Dnr as [_ D1]. destruct Dni as [_ D2].
      rewrite (proj1 (D1 s l a Hl Ha)), (proj1 (D2 s l b Hl Hb)). reflexivity.
    - split; [exact A4|]. intros s x t j H1 H2. destruct (proj1 (Ow s x t j) (conj H1 H2)) as (c & k & r & q & _ & _ & _ & l & _ & O1 & O2). exact (A5 r l t j O1 O2). }
  destruct (make_dist_ok inv nr ni (de_nents low) Hinv Rnr ltac:(lia) Anr) as (ds1 & uses & _ & Em & _).
  pose proof (make_dist_link inv nr ni (de_nents low) Hinv Rnr ltac:(lia) Anr uses Em) as Ku.
  destruct (l_global _ _ Sl) as (g & Ig & Ng & Tg & Cg).
  assert (globals low = Ok (dt_data g)) as Egl.
  { unfold globals. rewrite <- Ng, (find_dtag_in _ g (l_names _ _ Sl) Ig), Tg. reflexivity. }
  assert (data_per_root (de_nents low) (dt_data g) 1) as Dg.
  { pose proof (l_tags _ _ Sl) as F. rewrite Forall_forall in F. destruct (F g Ig) as (_ & _ & D). rewrite Cg in D. exact D. }
  destruct (get_new_copies_ok uses _ nr ni (de_nents low) Ku ltac:(lia) (dt_data g) Dg) as (nl & cl & lsrc & Enl & Kl & Lls & Gls).
  destruct (form_new_conn_ok uses nl _ cl nr ni (de_nents low) lsrc Ku Kl Lls) as (conn & Ec & [Lc Pc] & Gc).
  { intros s i t j H. destruct (zget_in_range lsrc s) as (l & Hl); [rewrite Lls; destruct H as [(a & Ha & _) _]; eapply zget_bounds; eauto|]. exists l. split; [exact Hl|]. apply (Gls s l Hl). eauto. }
  unfold push_down, form_down_use_owners. rewrite Eur, Eui. cbn [bind]. rewrite Enr, Eni. cbn [bind]. rewrite Em. cbn [bind]. rewrite Egl. cbn [bind]. rewrite Enl. cbn [bind]. rewrite Ec. cbn [bind].
  assert (exists codes, match de_codes high with Some old => c <- exch (invert new) old deg ;; Ok (Some c) | None => Ok None end = Ok codes /\
    match de_codes high, codes with Some x, Some x' => delivered hsrc x x' deg | None, None => True | _, _ => False end) as (codes & Ecd & Gcd).
  { pose proof (d_codes _ _ _ Sd) as Dc. destruct (de_codes high) as [old|]; [|exists None; auto]. destruct (link_delivers new cn hsrc _ K _ old deg Hdeg Dc) as (o & Eo & Do). exists (Some o). rewrite Eo. auto. }
  rewrite Ecd. cbn [bind]. exists conn, codes, nl, cl, lsrc. split; [reflexivity|]. split; [exact Kl|]. split; [|split; [|split; [|exact Gcd]]].
  - split; [lia|]. intros s l Hl. destruct (Gls s l Hl) as (N & I & B). split; [exact N|]. split.
    + intros t j. rewrite I. split.
      * intros (x & Hx). apply Ow in Hx as (c & k & r & q & _ & H1 & H2). eauto 6.
      * intros (c & r & q & k & H1 & H2). exists (c * deg + k). apply Ow. eauto 8.
    + intros g' (g2 & I2 & N2 & <-). assert (Some g2 = Some g) as [= ->]; [|exact B]. rewrite <- (find_dtag_in _ g2 (l_names _ _ Sl) I2), <- (find_dtag_in _ g (l_names _ _ Sl) Ig). congruence.
  - split; [rewrite zlen_map; lia|]. intros s n y Hn Hy. apply zget_map_inv in Hn as (l & Hl & ->). destruct (zget_in_range nr s) as (a & Ha); [rewrite Lnr, <- Lhs; eapply zget_bounds; eauto|].
    rewrite (Pc s a y Ha Hy). destruct Dnr as [_ D1]. apply (proj1 (D1 s l a Hl Ha)).
  - intros s c r q k t j H1 H2. destruct (Gc s (c * deg + k) t j) as (x & l & Hx & Hl & Hlx); [apply Ow; eauto 8|]. exists x. split; [exact Hx|]. exists l. auto.
Qed.
End down.
