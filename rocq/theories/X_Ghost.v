(** Example data for ghosting: a chain of segments over three ranks, and a row of quadrilaterals over two. *)
From Coq Require Import String Sorting.Sorted.
From Verif Require Import Prelude M_Array M_Par M_Scan S_Scan M_Sort S_Sort M_Map S_Map M_Tags P_Tags M_Template M_Dist S_Dist M_Owners S_Owners M_Migrate S_Migrate M_Ghost S_Ghost P_Map P_Fan P_Dist2 P_Dist6 P_Link P_Migrate5 P_Migrate6 P_Ghost4 P_Ghost5 P_Ghost6 X_Migrate.
Local Open Scope Z_scope.

(** ** ways to check the hypotheses *)
Fixpoint bound_verts (m : dmesh) (d : nat) (s x : Z) : list Z :=
  match d with
  | O => [x]
  | S low => match zget (dm_ents m) (Z.of_nat d) with
    | Ok e => match zget (de_down e) s with
      | Ok a => let deg := element_degree (dm_family m) (Z.of_nat d) (Z.of_nat low) in
          flat_map (fun k => match zget a (x * deg + k) with Ok l => bound_verts m low s l | _ => [] end) (zrange deg)
      | _ => [] end
    | _ => [] end
  end.
Lemma bound_verts_ok m : forall d s x v, In v (bound_verts m d s x) <-> bounds m d s x v.
Proof.
  induction d as [|d IH]; intros s x v; cbn [bound_verts bounds]; [cbn; intuition congruence|].
  destruct (zget (dm_ents m) (Z.of_nat (S d))) as [e| |] eqn:E; [|split; [intros []|intros (e & k & l & He & _); congruence]..].
  destruct (zget (de_down e) s) as [a| |] eqn:Ea; [|split; [intros []|intros (e' & k & l & He & _ & (a' & Ha & _) & _); congruence]..].
  cbv zeta. rewrite in_flat_map. split.
  - intros (k & Ik & Hk). apply in_zrange in Ik. destruct (zget a (x * element_degree (dm_family m) (Z.of_nat (S d)) (Z.of_nat d) + k)) as [l| |] eqn:El; [|destruct Hk..]. exists e, k, l. split; [reflexivity|]. split; [exact Ik|]. split; [exists a; auto|apply IH, Hk].
  - intros (e' & k & l & He & Hk & (a' & Ha & Hl) & Hb). injection He as <-. assert (a' = a) as -> by congruence. exists k. split; [apply in_zrange, Hk|]. rewrite Hl. apply IH, Hb.
Qed.
Definition inb (v : Z) (l : list Z) : bool := existsb (Z.eqb v) l.
Lemma inb_ok v l : inb v l = true <-> In v l.
Proof. unfold inb. rewrite existsb_exists. split; [intros (w & H & E); apply Z.eqb_eq in E; subst; exact H|intros H; exists v; split; [exact H|apply Z.eqb_refl]]. Qed.
Definition subb (l l' : list Z) : bool := forallb (fun v => inb v l') l.
Lemma subb_ok l l' : subb l l' = true -> forall v, In v l -> In v l'.
Proof. unfold subb. rewrite forallb_forall. intros H v I. apply inb_ok, H, I. Qed.

Definition slice (l : list Z) (b n : Z) : list Z := flat_map (fun k => match zget l (b + k) with Ok v => [v] | _ => [] end) (zrange n).
Lemma slice_ok l b n v : In v (slice l b n) <-> exists k, 0 <= k < n /\ zget l (b + k) = Ok v.
Proof.
  unfold slice. rewrite in_flat_map. split.
  - intros (k & Ik & Hk). apply in_zrange in Ik. destruct (zget l (b + k)) eqn:E; [|destruct Hk..]. destruct Hk as [<-|[]]. eauto.
  - intros (k & Hk & E). exists k. split; [apply in_zrange, Hk|]. rewrite E. left. reflexivity.
Qed.
Fixpoint fanb (f : list Z) (lo : Z) : bool := match f with [] => true | x :: f => (lo <=? x) && fanb f x end.

Definition downb (m : dmesh) (elems : dents) (a : asked) : bool :=
  let deg := element_degree (dm_family m) (dm_dim m) 0 in
  per_rootb (de_nents elems) (elems2verts a) deg &&
  all_zget (de_nents elems) (fun s n => getb (zget (elems2verts a) s) (fun ev => forallb (fun x =>
    let l := slice ev (x * deg) deg in let l' := bound_verts m (Z.to_nat (dm_dim m)) s x in subb l l' && subb l' l) (zrange n))).
Lemma downb_ok m elems a : downb m elems a = true ->
  data_per_root (de_nents elems) (elems2verts a) (element_degree (dm_family m) (dm_dim m) 0) /\
  forall s n x v, zget (de_nents elems) s = Ok n -> 0 <= x < n ->
    ((exists k, 0 <= k < element_degree (dm_family m) (dm_dim m) 0 /\ goes_to (elems2verts a) s (x * element_degree (dm_family m) (dm_dim m) 0 + k) v) <-> bounds m (Z.to_nat (dm_dim m)) s x v).
Proof.
  unfold downb. intros H. apply andb_prop in H as [H1 H2]. split; [apply per_rootb_ok, H1|]. intros s n x v Hn Hx. pose proof (all_zget_ok _ _ H2 s n Hn) as H. cbv beta in H. apply getb_ex in H as (ev & Hev & H). rewrite forallb_forall in H. specialize (H x (proj2 (in_zrange _ _) Hx)). cbv zeta in H. apply andb_prop in H as [S1 S2].
  rewrite <- bound_verts_ok. rewrite <- (conj (subb_ok _ _ S1 v) (subb_ok _ _ S2 v) : In v _ <-> In v _), slice_ok. split.
  - intros (k & Hk & (ev' & He' & G)). assert (ev' = ev) as -> by congruence. eauto.
  - intros (k & Hk & G). exists k. split; [exact Hk|]. exists ev. auto.
Qed.
Definition upb (m : dmesh) (elems verts : dents) (a : asked) : bool :=
  (zlen (verts2uses a) =? zlen (de_nents verts)) && (zlen (uses2elems a) =? zlen (de_nents verts)) && (zlen (de_nents elems) =? zlen (de_nents verts)) &&
  all_zget (de_nents verts) (fun s n => getb (zget (verts2uses a) s) (fun f => getb (zget (uses2elems a) s) (fun u => getb (zget (de_nents elems) s) (fun ne =>
    (getb (zget f 0) (fun z => z =? 0)) && fanb f 0 && (zlen f =? n + 1) && getb (last_of f) (fun z => z =? zlen u) &&
    forallb (fun x => (0 <=? x) && (x <? ne)) u &&
    forallb (fun v => getb (zget f v) (fun b => getb (zget f (v + 1)) (fun e => forallb (fun x => inb v (bound_verts m (Z.to_nat (dm_dim m)) s x)) (slice u b (e - b))))) (zrange n) &&
    forallb (fun x => forallb (fun v => (0 <=? v) && (v <? n) && getb (zget f v) (fun b => getb (zget f (v + 1)) (fun e => inb x (slice u b (e - b))))) (bound_verts m (Z.to_nat (dm_dim m)) s x)) (zrange ne))))).
Lemma fanb_mono : forall f lo, fanb f lo = true -> forall i x, zget f i = Ok x -> lo <= x.
Proof.
  induction f as [|y f IH]; intros lo H i x Hx; [apply zget_bounds in Hx; change (zlen (@nil Z)) with 0 in Hx; lia|]. cbn in H. apply andb_prop in H as [H1 H2]. apply Z.leb_le in H1. apply zget_In in Hx. destruct Hx as [<-|I]; [exact H1|]. apply In_zget in I as (k & Hk). specialize (IH y H2 k x Hk). lia.
Qed.
Lemma fanb_step : forall f lo, fanb f lo = true -> forall i x y, zget f i = Ok x -> zget f (i + 1) = Ok y -> x <= y.
Proof.
  induction f as [|z f IH]; intros lo H i x y Hx Hy; [apply zget_bounds in Hx; change (zlen (@nil Z)) with 0 in Hx; lia|]. cbn in H. apply andb_prop in H as [_ H]. pose proof (zget_bounds _ _ _ Hx) as B.
  assert (forall k, 0 <= k -> zget (z :: f) (k + 1) = zget f k) as Sh by (intros k Hk; unfold zget; rewrite (proj2 (Z.ltb_ge _ _)), (proj2 (Z.ltb_ge k _)) by lia; rewrite Z2Nat.inj_add by lia; rewrite Nat.add_1_r; reflexivity).
  rewrite Sh in Hy by lia. destruct (Z.eq_dec i 0) as [->|Ne].
  - injection Hx as ->. eapply fanb_mono; eauto.
  - replace i with ((i - 1) + 1) in Hx, Hy by lia. rewrite Sh in Hx by lia. eapply IH; eauto.
Qed.
Lemma upb_ok m elems verts a : upb m elems verts a = true ->
  (zlen (verts2uses a) = zlen (de_nents verts) /\ zlen (uses2elems a) = zlen (de_nents verts)) /\
  (forall s f u n, zget (verts2uses a) s = Ok f -> zget (uses2elems a) s = Ok u -> zget (de_nents verts) s = Ok n -> is_fan f /\ zlen f = n + 1 /\ last_of f = Ok (zlen u)) /\
  forall s f u n v x, zget (verts2uses a) s = Ok f -> zget (uses2elems a) s = Ok u -> zget (de_nents elems) s = Ok n ->
    ((exists c, in_group f v c /\ zget u c = Ok x) <-> 0 <= x < n /\ bounds m (Z.to_nat (dm_dim m)) s x v).
Proof.
  unfold upb. rewrite !Bool.andb_true_iff. intros (((H1 & H2) & H3) & H4). apply Z.eqb_eq in H1, H2, H3. split; [auto|]. split.
  - intros s f u n Hf Hu Hn. pose proof (all_zget_ok _ _ H4 s n Hn) as H. cbv beta in H. pose proof (getb_ok _ _ _ H Hf) as H'. cbv beta in H'. pose proof (getb_ok _ _ _ H' Hu) as H5. cbv beta in H5. apply getb_ex in H5 as (ne & Hne & H5). rewrite !Bool.andb_true_iff in H5. destruct H5 as ((((((K1 & K2) & K3) & K4) & _) & _) & _).
    apply getb_ex in K1 as (z & Hz & K1). apply Z.eqb_eq in K1. subst z. apply getb_ex in K4 as (w & Hw & K4). apply Z.eqb_eq in K3, K4. subst w. split; [|auto]. split; [exact Hz|]. intros i x y Hx Hy. eapply fanb_step; eauto.
  - intros s f u ne v x Hf Hu Hne. destruct (zget_in_range (de_nents verts) s) as (n & Hn); [rewrite <- H1; eapply zget_bounds; eauto|]. pose proof (all_zget_ok _ _ H4 s n Hn) as H. cbv beta in H. pose proof (getb_ok _ _ _ H Hf) as H'. cbv beta in H'. pose proof (getb_ok _ _ _ H' Hu) as H5. cbv beta in H5. pose proof (getb_ok _ _ _ H5 Hne) as H6. cbv beta in H6. rewrite !Bool.andb_true_iff in H6. destruct H6 as ((((((_ & _) & K3) & _) & K5) & K6) & K7).
    apply Z.eqb_eq in K3. rewrite forallb_forall in K5, K6, K7. split.
    + intros (c & (b & e & Hb & He & Bc) & Hc). specialize (K5 x (zget_In _ _ _ Hc)). apply andb_prop in K5 as [B1 B2]. apply Z.leb_le in B1. apply Z.ltb_lt in B2. split; [lia|].
      assert (0 <= v < n) as Bv. { pose proof (zget_bounds _ _ _ Hb). pose proof (zget_bounds _ _ _ He). lia. }
      specialize (K6 v (proj2 (in_zrange _ _) Bv)). rewrite Hb, He in K6. cbn [getb] in K6. rewrite forallb_forall in K6. apply bound_verts_ok, inb_ok, K6, slice_ok. exists (c - b). split; [lia|]. replace (b + (c - b)) with c by lia. exact Hc.
    + intros (Bx & Hb). specialize (K7 x (proj2 (in_zrange _ _) Bx)). rewrite forallb_forall in K7. specialize (K7 v (proj2 (bound_verts_ok _ _ _ _ _) Hb)). apply andb_prop in K7 as [_ K7]. apply getb_ex in K7 as (b & Eb & K7). apply getb_ex in K7 as (e & Ee & K7). apply inb_ok, slice_ok in K7 as (k & Bk & Hk).
      exists (b + k). split; [|exact Hk]. exists b, e. split; [exact Eb|]. split; [exact Ee|lia].
Qed.
Lemma answeredb_ok m elems verts a : downb m elems a && upb m elems verts a = true -> answered m elems verts a.
Proof. intros H. apply andb_prop in H as [H1 H2]. apply downb_ok in H1 as [A1 A2]. apply upb_ok in H2 as (A3 & A4 & A5). constructor; assumption. Qed.

Definition level_agreesb (e : dents) : bool :=
  all_zget (de_ranks e) (fun s a => getb (zget (de_idxs e) s) (fun b => all_zget a (fun i t => getb (zget b i) (fun j =>
    getb (zget (de_ranks e) t) (fun a' => getb (zget a' j) (fun t' => t' =? t)) && getb (zget (de_idxs e) t) (fun b' => getb (zget b' j) (fun j' => j' =? j)) &&
    forallb (fun g => getb (zget (dt_data g) s) (fun x => getb (zget (dt_data g) t) (fun y => forallb (fun k => getb (zget x (i * dt_ncomps g + k)) (fun v => getb (zget y (j * dt_ncomps g + k)) (Z.eqb v))) (zrange (dt_ncomps g))))) (de_tags e))))).
Lemma level_agreesb_ok e : level_agreesb e = true -> level_agrees e.
Proof.
  unfold level_agreesb. intros H s i t j [(a & Ha & Ht) (b & Hb & Hj)]. pose proof (all_zget_ok _ _ H s a Ha) as K. cbv beta in K. pose proof (getb_ok _ _ _ K Hb) as K1. cbv beta in K1. pose proof (all_zget_ok _ _ K1 i t Ht) as K2. cbv beta in K2. pose proof (getb_ok _ _ _ K2 Hj) as K3. cbv beta in K3. rewrite !Bool.andb_true_iff in K3. destruct K3 as ((K3 & K4) & K5).
  apply getb_ex in K3 as (a' & Ha' & K3). apply getb_ex in K3 as (t' & Ht' & K3). apply Z.eqb_eq in K3. subst t'. apply getb_ex in K4 as (b' & Hb' & K4). apply getb_ex in K4 as (j' & Hj' & K4). apply Z.eqb_eq in K4. subst j'. split; [split; [exists a'|exists b']; auto|].
  intros g x y Ig Hx Hy k Hk. rewrite forallb_forall in K5. specialize (K5 g Ig). pose proof (getb_ok _ _ _ K5 Hx) as K6. cbv beta in K6. pose proof (getb_ok _ _ _ K6 Hy) as K7. cbv beta in K7. rewrite forallb_forall in K7. specialize (K7 k (proj2 (in_zrange _ _) Hk)). apply getb_ex in K7 as (v & Hv & K7). apply getb_ex in K7 as (w & Hw & K7). apply Z.eqb_eq in K7. subst w. eauto.
Qed.
(** the owner of side [k] of an entity *)
Definition side_of (deg : Z) (high low : dents) (s i k : Z) : res (Z * Z) :=
  a <- zget (de_down high) s ;; l <- zget a (i * deg + k) ;; r <- zget (de_ranks low) s ;; x <- zget (de_idxs low) s ;; t <- zget r l ;; j <- zget x l ;; Ok (t, j).
Lemma side_of_ok deg high low s i k t j : 0 <= k < deg -> (side_of deg high low s i k = Ok (t, j) <-> side_owner deg high low s i k t j).
Proof.
  intros Hk. unfold side_of. split.
  - intros H. apply bind_ok in H as (a & Ha & H). apply bind_ok in H as (l & Hl & H). apply bind_ok in H as (r & Hr & H). apply bind_ok in H as (x & Hx & H). apply bind_ok in H as (t' & Ht & H). apply bind_ok in H as (j' & Hj & H). injection H as -> ->. split; [exact Hk|]. exists l. split; [exists a; auto|]. split; [exists r|exists x]; auto.
  - intros (_ & l & (a & Ha & Hl) & (r & Hr & Ht) & (x & Hx & Hj)). rewrite Ha. cbn [bind]. rewrite Hl. cbn [bind]. rewrite Hr. cbn [bind]. rewrite Hx. cbn [bind]. rewrite Ht. cbn [bind]. rewrite Hj. reflexivity.
Qed.
Definition sides_agreeb (deg : Z) (high low : dents) : bool :=
  all_zget (de_ranks high) (fun s a => getb (zget (de_idxs high) s) (fun b => all_zget a (fun i t => getb (zget b i) (fun j => forallb (fun k =>
    getb (side_of deg high low s i k) (fun p => getb (side_of deg high low t j k) (fun q => (fst p =? fst q) && (snd p =? snd q)))) (zrange deg))))).
Lemma sides_agreeb_ok deg high low : sides_agreeb deg high low = true -> sides_agree deg high low.
Proof.
  unfold sides_agreeb. intros H s i t j k r q [(a & Ha & Ht) (b & Hb & Hj)]. pose proof (all_zget_ok _ _ H s a Ha) as K. cbv beta in K. pose proof (getb_ok _ _ _ K Hb) as K1. cbv beta in K1. pose proof (all_zget_ok _ _ K1 i t Ht) as K2. cbv beta in K2. pose proof (getb_ok _ _ _ K2 Hj) as K3. cbv beta in K3. rewrite forallb_forall in K3.
  assert (0 <= k < deg -> side_of deg high low s i k = side_of deg high low t j k) as E. { intros Hk. specialize (K3 k (proj2 (in_zrange _ _) Hk)). apply getb_ex in K3 as ([p1 p2] & -> & K3). apply getb_ex in K3 as ([q1 q2] & -> & K3). cbn [fst snd] in K3. apply andb_prop in K3 as [E1 E2]. apply Z.eqb_eq in E1, E2. congruence. }
  split; intros So; pose proof (proj1 So) as Hk; apply side_of_ok; auto; apply side_of_ok in So; auto; rewrite E in * by exact Hk; exact So.
Qed.
Definition agreesb (m : dmesh) : bool :=
  forallb level_agreesb (dm_ents m) && all_zget (dm_ents m) (fun d low => match zget (dm_ents m) (d + 1) with Ok high => sides_agreeb (element_degree (dm_family m) (d + 1) d) high low | _ => true end).
Lemma agreesb_ok m : agreesb m = true -> agrees m.
Proof.
  unfold agreesb. intros H. apply andb_prop in H as [H1 H2]. split.
  - intros d e He. apply level_agreesb_ok. rewrite forallb_forall in H1. apply H1. eapply zget_In; eauto.
  - intros d high low Hh Hl. pose proof (all_zget_ok _ _ H2 d low Hl) as H. cbv beta in H. rewrite Hh in H. apply sides_agreeb_ok, H.
Qed.
Definition coveredb (m : dmesh) : bool :=
  (zlen (dm_ents m) =? dm_dim m + 1) && all_zget (dm_ents m) (fun d low => match zget (dm_ents m) (d + 1) with
    | Ok high => let deg := element_degree (dm_family m) (d + 1) d in
        all_zget (de_nents low) (fun s n => getb (zget (de_nents high) s) (fun nh => getb (zget (de_down high) s) (fun a => (0 <? deg) && (zlen a =? nh * deg) && forallb (fun l => inb l a) (zrange n))))
    | _ => true end).
Lemma coveredb_ok m : coveredb m = true -> covered m.
Proof.
  unfold coveredb. intros H. apply andb_prop in H as [_ H]. intros d high low s n l Hd Hh Hl Hn Bl. pose proof (all_zget_ok _ _ H d low Hl) as K. cbv beta in K. rewrite Hh in K. cbv zeta in K. pose proof (all_zget_ok _ _ K s n Hn) as K1. cbv beta in K1. apply getb_ex in K1 as (nh & _ & K1). apply getb_ex in K1 as (a & Ha & K1). rewrite !Bool.andb_true_iff in K1. destruct K1 as ((K1 & K2) & K3). apply Z.ltb_lt in K1.
  rewrite forallb_forall in K3. specialize (K3 l (proj2 (in_zrange _ _) Bl)). apply inb_ok, In_zget in K3 as (c & Hc). set (deg := element_degree (dm_family m) (d + 1) d) in *. exists (c / deg), (c mod deg). split; [apply Z.mod_pos_bound, K1|]. exists a. split; [exact Ha|]. rewrite <- Hc. f_equal. rewrite (Z.div_mod c deg) at 3 by lia. lia.
Qed.

(** ** a chain of seven segments: vertices 0 to 7, segments (i, i + 1); rank 0 has three, rank 1 one and rank 2 three.  Numbers of entities on
    the later ranks run backwards. *)
Definition gx_verts := DEnts [4; 2; 4] [[]; []; []] None [[0; 0; 0; 0]; [1; 0]; [2; 2; 2; 1]] [[0; 1; 2; 3]; [0; 3]; [0; 1; 2; 0]]
  [DTag global_name OMEGA_H_I64 1 [[0; 1; 2; 3]; [4; 3]; [7; 6; 5; 4]]].
Definition gx_edges := DEnts [3; 1; 3] [[0; 1; 1; 2; 2; 3]; [1; 0]; [1; 0; 2; 1; 3; 2]] None [[0; 0; 0]; [1]; [2; 2; 2]] [[0; 1; 2]; [0]; [0; 1; 2]]
  [DTag global_name OMEGA_H_I64 1 [[0; 1; 2]; [3]; [6; 5; 4]]; DTag (ex_name "size") OMEGA_H_F64 1 [[50; 51; 52]; [53]; [56; 55; 54]]].
Definition gx_mesh := DMesh OMEGA_H_SIMPLEX 1 [gx_verts; gx_edges].
Definition gx_asked := Asked [[0; 1; 1; 2; 2; 3]; [1; 0]; [1; 0; 2; 1; 3; 2]] [[0; 1; 3; 5; 6]; [0; 1; 2]; [0; 1; 3; 5; 6]] [[0; 0; 1; 1; 2; 2]; [0; 0]; [0; 0; 1; 1; 2; 2]].
Lemma gx_ok : sound 3 gx_mesh /\ agrees gx_mesh /\ covered gx_mesh /\ answered gx_mesh gx_edges gx_verts gx_asked.
Proof.
  split; [apply soundb_ok; vm_compute; reflexivity|]. split; [apply agreesb_ok; vm_compute; reflexivity|]. split; [apply coveredb_ok; vm_compute; reflexivity|]. apply answeredb_ok. vm_compute. reflexivity.
Qed.
(** global numbers of the segments of each rank, with their owners *)
Definition elems_seen (x : res dmesh) := m <- x ;; e <- elems_of m ;; g <- globals e ;; Ok (g, de_ranks e, de_idxs e).
Lemma gx_one_layer : elems_seen (ghost_mesh ex_by_sorting gx_mesh gx_asked 0 1) = Ok ([[0; 1; 2; 3]; [2; 3; 4]; [3; 4; 5; 6]], [[0; 0; 0; 1]; [0; 1; 2]; [1; 2; 2; 2]], [[0; 1; 2; 1]; [2; 1; 1]; [1; 1; 2; 3]]).
Proof. vm_compute. reflexivity. Qed.
Lemma gx_two_layers : elems_seen (ghost_mesh ex_by_sorting gx_mesh gx_asked 0 2) =
  Ok ([[0; 1; 2; 3; 4]; [1; 2; 3; 4; 5]; [2; 3; 4; 5; 6]], [[0; 0; 0; 1; 2]; [0; 0; 1; 2; 2]; [0; 1; 2; 2; 2]], [[0; 1; 2; 2; 2]; [1; 2; 2; 2; 3]; [2; 2; 2; 3; 4]]).
Proof. vm_compute. reflexivity. Qed.
Lemma gx_by_verts : elems_seen (partition_by_verts ex_by_sorting gx_mesh gx_asked) = Ok ([[0; 1; 2; 3]; [3; 4]; [4; 5; 6]], [[0; 0; 0; 1]; [1; 1]; [1; 2; 2]], [[0; 1; 2; 0]; [0; 1]; [1; 1; 2]]).
Proof. vm_compute. reflexivity. Qed.
Lemma gx_by_elems : elems_seen (m <- ghost_mesh ex_by_sorting gx_mesh gx_asked 0 1 ;; partition_by_elems ex_by_sorting m) = Ok ([[0; 1; 2]; [3]; [4; 5; 6]], [[0; 0; 0]; [1]; [2; 2; 2]], [[0; 1; 2]; [0]; [0; 1; 2]]).
Proof. vm_compute. reflexivity. Qed.

(** ** three quadrilaterals in a row, two on rank 0 and one on rank 1 *)
Definition gq_verts := DEnts [6; 4] [[]; []] None [[0; 0; 0; 0; 0; 0]; [0; 1; 1; 0]] [[0; 1; 2; 3; 4; 5]; [2; 1; 2; 5]]
  [DTag global_name OMEGA_H_I64 1 [[0; 1; 2; 4; 5; 6]; [2; 3; 7; 6]]].
Definition gq_edges := DEnts [7; 4] [[0; 1; 1; 4; 4; 3; 3; 0; 1; 2; 2; 5; 5; 4]; [0; 1; 1; 2; 2; 3; 0; 3]] None [[0; 0; 0; 0; 0; 0; 0]; [1; 1; 1; 0]] [[0; 1; 2; 3; 4; 5; 6]; [0; 1; 2; 5]]
  [DTag global_name OMEGA_H_I64 1 [[0; 1; 2; 3; 4; 5; 6]; [7; 8; 9; 5]]].
Definition gq_quads := DEnts [2; 1] [[0; 1; 2; 3; 4; 5; 6; 1]; [0; 1; 2; 3]] (Some [[0; 0; 0; 0; 0; 0; 0; 1]; [0; 0; 0; 1]]) [[0; 0]; [1]] [[0; 1]; [0]]
  [DTag global_name OMEGA_H_I64 1 [[0; 1]; [2]]].
Definition gq_mesh := DMesh OMEGA_H_HYPERCUBE 2 [gq_verts; gq_edges; gq_quads].
Definition gq_asked := Asked [[0; 1; 4; 3; 1; 2; 5; 4]; [0; 1; 2; 3]] [[0; 1; 3; 4; 5; 7; 8]; [0; 1; 2; 3; 4]] [[0; 0; 1; 1; 0; 0; 1; 1]; [0; 0; 0; 0]].
Lemma gq_ok : sound 2 gq_mesh /\ agrees gq_mesh /\ covered gq_mesh /\ answered gq_mesh gq_quads gq_verts gq_asked.
Proof.
  split; [apply soundb_ok; vm_compute; reflexivity|]. split; [apply agreesb_ok; vm_compute; reflexivity|]. split; [apply coveredb_ok; vm_compute; reflexivity|]. apply answeredb_ok. vm_compute. reflexivity.
Qed.
Lemma gq_one_layer : elems_seen (ghost_mesh ex_by_sorting gq_mesh gq_asked 0 1) = Ok ([[0; 1; 2]; [1; 2]], [[0; 0; 1]; [0; 1]], [[0; 1; 1]; [1; 1]]).
Proof. vm_compute. reflexivity. Qed.
Lemma gq_two_layers : ghost_mesh ex_by_sorting gq_mesh gq_asked 0 2 = Abort.
Proof. vm_compute. reflexivity. Qed.

Lemma hypercubes_abort : ~ forall inv nranks m elems verts a have want, inverter inv -> sound nranks m -> agrees m -> covered m -> verts_of m = Ok verts -> elems_of m = Ok elems ->
  answered m elems verts a -> 0 <= have < want -> exists m', ghost_mesh inv m a have want = Ok m'.
Proof.
  intros H. destruct gq_ok as (S & A & C & W). destruct (H ex_by_sorting 2 gq_mesh gq_quads gq_verts gq_asked 0 2 sorting_inverter S A C eq_refl eq_refl W ltac:(lia)) as (m' & E). rewrite gq_two_layers in E. discriminate.
Qed.
Lemma ghost_refused inv m a have want : have < 0 \/ want <= have -> ghost_mesh inv m a have want = Abort.
Proof. intros H. unfold ghost_mesh. destruct (Z.leb_spec 0 have); cbn [check bind]; [|reflexivity]. destruct (Z.ltb_spec have want); cbn [check bind]; [lia|reflexivity]. Qed.
