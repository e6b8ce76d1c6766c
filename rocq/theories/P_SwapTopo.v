(** swap3d_topology over all keys. *)
From Verif Require Import Prelude M_Array M_Scan M_Map M_Align M_Template M_SwapTables M_Swap3d S_Swap3d S_SwapMesh S_Scan P_Array P_Scan P_Fan P_Across P_Graph P_SwapTables P_Loop P_SwapVolume P_SwapKey.
From Coq Require Import Permutation.
Local Open Scope Z_scope.

Lemma write_block_ok {A} (row : list A) : forall P R, write_block (P ++ repeat None (length row) ++ R) (zlen P) row = Ok (P ++ map Some row ++ R).
Proof.
  induction row as [|x t IH]; intros P R; cbn [write_block length repeat app map]; [reflexivity|]. rewrite zset_mid. cbn [bind].
  specialize (IH (P ++ [Some x]) R). rewrite zlen_app in IH. change (zlen [Some x]) with 1 in IH. rewrite <- !app_assoc in IH. exact IH.
Qed.

Lemma Forall2_weaken {A B} (P Q : A -> B -> Prop) l m : (forall x y, P x y -> Q x y) -> Forall2 P l m -> Forall2 Q l m.
Proof. intros H. induction 1; constructor; auto. Qed.
Lemma Forall2_map_r {A B C} (P : A -> B -> Prop) (Q : A -> C -> Prop) (g : B -> C) l m : Forall2 P l m -> (forall x y, P x y -> Q x (g y)) -> Forall2 Q l (map g m).
Proof. intros H K. induction H; constructor; auto. Qed.

(** entities of width [k] stored one after the other *)
Definition flat (k : Z) (L : list (list (list Z))) : list Z := concat (map (@concat Z) L).
Lemma zlen_concat k (ts : list (list Z)) : (forall t, In t ts -> zlen t = k) -> zlen (concat ts) = zlen ts * k.
Proof.
  induction ts as [|t ts IH]; intros H; [reflexivity|]. cbn [concat]. rewrite zlen_app, zlen_cons, IH by (intros; apply H; right; assumption). rewrite (H t) by (left; reflexivity). ring.
Qed.
Lemma zlen_flat k L : (forall ts, In ts L -> forall t, In t ts -> zlen t = k) -> zlen (flat k L) = zsum (map zlen L) * k.
Proof.
  unfold flat. induction L as [|ts L IH]; intros H; [reflexivity|]. cbn [map concat]. rewrite zlen_app, IH by (intros; eapply H; [right; eassumption | eassumption]). rewrite (zlen_concat k) by (apply H; left; reflexivity). change (zsum (zlen ts :: map zlen L)) with (zlen ts + zsum (map zlen L)). ring.
Qed.
Lemma block_step k L j ts (R : list (option Z)) : (forall ts, In ts L -> forall t, In t ts -> zlen t = k) -> nth_error L j = Some ts ->
  exists p, zget (offset_scan (map zlen L)) (Z.of_nat j) = Ok p /\
  write_block (map Some (flat k (firstn j L)) ++ repeat None (length (flat k (skipn j L)))) (p * k) (concat ts) = Ok (map Some (flat k (firstn (S j) L)) ++ repeat None (length (flat k (skipn (S j) L)))).
Proof.
  intros H Ej. assert (j < length L)%nat as Hj by (apply nth_error_Some; congruence).
  exists (zsum (firstn j (map zlen L))). split. { rewrite offset_scan_get by (rewrite zlen_map; unfold zlen; lia). rewrite Nat2Z.id. reflexivity. }
  assert (firstn (S j) L = firstn j L ++ [ts]) as E1. { clear -Ej. revert j Ej. induction L as [|c m IH]; intros [|j] E; cbn in *; try discriminate; [injection E as ->; reflexivity|]. f_equal. apply IH, E. }
  assert (skipn j L = ts :: skipn (S j) L) as E2. { clear -Ej. revert j Ej. induction L as [|c m IH]; intros [|j] E; cbn in *; try discriminate; [injection E as ->; reflexivity|]. apply IH, E. }
  assert (zsum (firstn j (map zlen L)) * k = zlen (map (@Some Z) (flat k (firstn j L)))) as ->.
  { rewrite zlen_map, zlen_flat, firstn_map; [reflexivity|]. intros u Hu. apply H. rewrite <- (firstn_skipn j L). apply in_or_app. left. exact Hu. }
  rewrite E1, E2. unfold flat. cbn [map concat]. rewrite app_length, repeat_app. rewrite write_block_ok. rewrite map_app, concat_app. cbn [map concat]. rewrite app_nil_r, map_app, <- app_assoc. reflexivity.
Qed.

Lemma chunk_get k (ts : list (list Z)) : 0 <= k -> (forall t, In t ts -> zlen t = k) -> forall A B lo, zlen A = lo * k -> ents_between k (A ++ concat ts ++ B) lo (lo + zlen ts) = Ok ts.
Proof.
  intros Hk. unfold ents_between. induction ts as [|t ts IH]; intros H A B lo HA; [unfold zfromto; rewrite zlen_nil; replace (lo + 0 - lo) with 0 by lia; reflexivity|].
  assert (zfromto lo (lo + zlen (t :: ts)) = lo :: zfromto (lo + 1) (lo + 1 + zlen ts)) as ->.
  { rewrite zlen_cons. pose proof (zlen_nonneg ts). unfold zfromto. replace (lo + (zlen ts + 1) - lo) with (zlen ts + 1) by lia. replace (lo + 1 + zlen ts - (lo + 1)) with (zlen ts) by lia. unfold zrange. replace (Z.to_nat (zlen ts + 1)) with (S (Z.to_nat (zlen ts))) by lia. cbn [seq map]. f_equal; [lia|]. rewrite <- seq_shift, !map_map. apply map_ext. intros i. lia. }
  cbn [mapM concat]. assert (verts_of k (A ++ (t ++ concat ts) ++ B) lo = Ok t) as ->.
  { unfold verts_of. apply mapM_ok. apply Forall2_nth'. { rewrite zrange_length. pose proof (H t (or_introl eq_refl)). unfold zlen in *. lia. }
    intros i x y Hx Hy. assert (i < length t)%nat as Hi by (apply nth_error_Some; congruence). pose proof (H t (or_introl eq_refl)) as Lt. unfold zlen in Lt. rewrite zrange_nth in Hx by lia. injection Hx as <-.
    rewrite <- HA. rewrite zget_app_r by (unfold zlen; lia). replace (zlen A + Z.of_nat i - zlen A) with (Z.of_nat i) by lia. rewrite <- app_assoc, zget_app_l by (unfold zlen; lia). apply zget_ok. rewrite Nat2Z.id. split; [lia | exact Hy]. }
  cbn [bind]. specialize (IH (fun u Hu => H u (or_intror Hu)) (A ++ t) B (lo + 1)). rewrite <- !app_assoc in *. rewrite IH; [reflexivity|]. rewrite zlen_app, HA, (H t) by (left; reflexivity). lia.
Qed.
Lemma flat_ents k L j ts : 0 <= k -> (forall ts, In ts L -> forall t, In t ts -> zlen t = k) -> nth_error L j = Some ts ->
  exists lo hi, zget (offset_scan (map zlen L)) (Z.of_nat j) = Ok lo /\ zget (offset_scan (map zlen L)) (Z.of_nat j + 1) = Ok hi /\ ents_between k (flat k L) lo hi = Ok ts.
Proof.
  intros Hk H Ej. assert (zget (map zlen L) (Z.of_nat j) = Ok (zlen ts)) as Ez. { rewrite zget_map. assert (zget L (Z.of_nat j) = Ok ts) as -> by (apply zget_ok; rewrite Nat2Z.id; split; [lia | exact Ej]). reflexivity. }
  destruct (offset_scan_step _ _ _ Ez) as (lo & E1 & E2). exists lo, (lo + zlen ts). split; [exact E1|]. split; [exact E2|].
  assert (j < length L)%nat as Hj by (apply nth_error_Some; congruence). rewrite offset_scan_get in E1 by (rewrite zlen_map; unfold zlen; lia). rewrite Nat2Z.id in E1. injection E1 as <-.
  assert (L = firstn j L ++ ts :: skipn (S j) L) as EL. { clear -Ej. revert j Ej. induction L as [|c m IH]; intros [|j] E; cbn in *; try discriminate; [injection E as ->; reflexivity|]. f_equal. apply IH, E. }
  assert (flat k L = flat k (firstn j L) ++ concat ts ++ flat k (skipn (S j) L)) as ->. { rewrite EL at 1. unfold flat. rewrite map_app, concat_app. reflexivity. }
  apply chunk_get; [exact Hk | intros t; apply H; apply (nth_error_In _ _ Ej) |]. rewrite zlen_flat, firstn_map; [reflexivity|]. intros u Hu. apply H. rewrite EL. apply in_or_app. left. exact Hu.
Qed.

Lemma concat_concat_map {A} (L : list (list (list A))) : concat (map (@concat A) L) = concat (concat L).
Proof. induction L as [|x L IH]; [reflexivity|]. cbn [map concat]. rewrite concat_app, IH. reflexivity. Qed.
Section topo.
Variables (e2et et2t codes ev2v tv2v keys2edges configs : list Z).
Hypothesis Hlen : 1 <= zlen e2et.
Hypothesis Hkeys : forall edge, In edge keys2edges -> exists e0 e1 l tets config count, cavity e2et et2t codes ev2v tv2v edge e0 e1 l tets /\
  zget configs edge = Ok config /\ zget swap_mesh_counts (zlen l) = Ok count /\ 0 <= config < count.

Definition one_key (edge : Z) : res (list (list Z) * list (list Z) * list (list Z)) :=
  config <- zget configs edge ;; l <- find_loop e2et et2t codes ev2v tv2v edge ;; key_prods l config.

Notation good := (swapped e2et et2t codes ev2v tv2v).

Lemma cavity_loop edge e0 e1 l tets : cavity e2et et2t codes ev2v tv2v edge e0 e1 l tets ->
  exists b e l', zget e2et edge = Ok b /\ zget e2et (edge + 1) = Ok e /\ e - b = zlen l /\ find_loop e2et et2t codes ev2v tv2v edge = Ok (mk_loop (zlen l) [e0; e1] l') /\ zlen l' = zlen l /\ rotated l l' /\ ring_of_tets e0 e1 l' tets.
Proof.
  clear Hkeys Hlen configs keys2edges. intros (b & e & Hb & He & H0 & H1 & Ht & Hc & Hr & Hn). 
  destruct (ring_ends et2t codes tv2v b e e0 e1 l tets Ht Hc Hr) as (pairs & _ & _ & Ll & _); [lia|].
  destruct (find_loop_spec e2et et2t codes ev2v tv2v edge b e e0 e1 l tets Hb He H0 H1 Ht Hc Hr) as (l' & E & Hrot & Hr'); [unfold MAX_EDGE_SWAP; lia | lia|].
  exists b, e, l'. rewrite Ll. repeat (split; [assumption || reflexivity|]). split; [|split; assumption]. destruct Hrot as (P & S' & -> & ->). rewrite <- Ll, !zlen_app. lia.
Qed.

Lemma one_key_spec edge : In edge keys2edges -> exists es fs rs n ne nt, one_key edge = Ok (es, fs, rs) /\ zget configs edge = zget configs edge /\
  (exists b e, zget e2et edge = Ok b /\ zget e2et (edge + 1) = Ok e /\ e - b = n) /\ zget nedges n = Ok ne /\ zget swap_mesh_sizes n = Ok nt /\ zlen es = ne /\ zlen fs = nt + 2 * ne /\ zlen rs = 2 * nt /\
  (forall t, In t es -> zlen t = 2) /\ (forall t, In t fs -> zlen t = 3) /\ (forall t, In t rs -> zlen t = 4) /\ good edge (es, fs, rs).
Proof.
  intros Hi. destruct (Hkeys edge Hi) as (e0 & e1 & l & tets & m & count & Hcav & Hm & Hcount & Hrange).
  destruct (cavity_loop edge e0 e1 l tets Hcav) as (b & e & l' & Hb & He & Ln & EL & Ll' & Hrot & Hr').
  assert (3 <= zlen l <= 7) as Hn by (destruct Hcav as (? & ? & K); tauto).
  rewrite <- Ll' in Hn, Hcount. assert (NoDup (e0 :: e1 :: l')) as Hd by apply Hr'.
  destruct (key_swap e0 e1 l' Hd m count tets Hn Hcount Hrange Hr') as (es & fs & rs & ne & nt & EK & A1 & A2 & A3 & A4 & A5 & A6 & A7 & A8 & B1 & B2 & B3 & B4 & B5 & B6 & B7).
  exists es, fs, rs, (zlen l), ne, nt. rewrite Ll' in *. split. { unfold one_key. rewrite Hm. cbn [bind]. rewrite EL. cbn [bind]. exact EK. }
  split; [reflexivity|]. split; [eauto|]. do 8 (split; [assumption|]). unfold swapped. intros f0 f1 k tets' Hcav'.
  assert (f0 = e0 /\ f1 = e1 /\ tets' = tets) as (-> & -> & ->); [|auto 10].
  destruct Hcav as (b1 & c1 & K1 & K2 & K3 & K4 & K5 & _). destruct Hcav' as (b2 & c2 & M1 & M2 & M3 & M4 & M5 & _). assert (b2 = b1) as -> by congruence. assert (c2 = c1) as -> by congruence. repeat split; congruence.
Qed.

Lemma topo_spec : exists k2e k2f k2r oe of or PR,
  swap3d_keys_to_prods e2et keys2edges = Ok (k2e, k2f, k2r) /\
  swap3d_topology e2et et2t codes ev2v tv2v keys2edges configs (k2e, k2f, k2r) = Ok (oe, of, or) /\
  Forall2 (fun edge p => good edge p /\ exists config loop, zget configs edge = Ok config /\ find_loop e2et et2t codes ev2v tv2v edge = Ok loop /\ key_prods loop config = Ok p) keys2edges PR /\
  (k2e = offset_scan (map (fun p => zlen (fst (fst p))) PR) /\ k2f = offset_scan (map (fun p => zlen (snd (fst p))) PR) /\ k2r = offset_scan (map (fun p => zlen (snd p)) PR)) /\
  (oe = concat (concat (map (fun p => fst (fst p)) PR)) /\ of = concat (concat (map (fun p => snd (fst p)) PR)) /\ or = concat (concat (map snd PR))) /\
  forall key p, zget PR key = Ok p -> let '(es, fs, rs) := p in
    (exists lo hi, zget k2e key = Ok lo /\ zget k2e (key + 1) = Ok hi /\ ents_between 2 oe lo hi = Ok es) /\
    (exists lo hi, zget k2f key = Ok lo /\ zget k2f (key + 1) = Ok hi /\ ents_between 3 of lo hi = Ok fs) /\
    (exists lo hi, zget k2r key = Ok lo /\ zget k2r (key + 1) = Ok hi /\ ents_between 4 or lo hi = Ok rs).
Proof.
  destruct (P_Graph.mapM_total one_key keys2edges) as (PR & EPR). { intros edge Hi. destruct (one_key_spec edge Hi) as (es & fs & rs & ? & ? & ? & E & _). eauto. }
  set (LE := map (fun p : list (list Z) * list (list Z) * list (list Z) => fst (fst p)) PR). set (LF := map (fun p : list (list Z) * list (list Z) * list (list Z) => snd (fst p)) PR). set (LR := map (@snd (list (list Z) * list (list Z)) (list (list Z))) PR).
  assert (Forall2 (fun edge p => one_key edge = Ok p /\ In edge keys2edges) keys2edges PR) as F1.
  { apply mapM_ok in EPR. assert (forall l, (forall x, In x l -> In x keys2edges) -> forall r, Forall2 (fun a b => one_key a = Ok b) l r -> Forall2 (fun edge p => one_key edge = Ok p /\ In edge keys2edges) l r) as G; [|apply G; auto].
    clear. intros l Hl r H. induction H as [|x y l r H _ IH]; constructor; [split; [exact H | apply Hl; left; reflexivity] | apply IH; intros z Hz; apply Hl; right; exact Hz]. }
  assert (Forall2 (fun edge (p : list (list Z) * list (list Z) * list (list Z)) => one_key edge = Ok p /\ good edge p /\ (forall t, In t (fst (fst p)) -> zlen t = 2) /\ (forall t, In t (snd (fst p)) -> zlen t = 3) /\ (forall t, In t (snd p) -> zlen t = 4) /\
     exists n ne nt b e, zget e2et edge = Ok b /\ zget e2et (edge + 1) = Ok e /\ e - b = n /\ zget nedges n = Ok ne /\ zget swap_mesh_sizes n = Ok nt /\ zlen (fst (fst p)) = ne /\ zlen (snd (fst p)) = nt + 2 * ne /\ zlen (snd p) = 2 * nt) keys2edges PR) as F2.
  { eapply Forall2_weaken; [|exact F1]. intros edge p [E Hi]. destruct (one_key_spec edge Hi) as (es & fs & rs & n & ne & nt & E' & _ & (b & e & B1 & B2 & B3) & C1 & C2 & C3 & C4 & C5 & C6 & C7 & C8 & C9). rewrite E' in E. injection E as <-. cbn [fst snd].
    do 5 (split; [assumption|]). exists n, ne, nt, b, e. auto 10. }
  clear F1. 
  assert (forall ts, In ts LE -> forall t, In t ts -> zlen t = 2) as HE. { intros ts Hts. apply in_map_iff in Hts as (p & <- & Hp). clear -F2 Hp. induction F2 as [|? q ? ? H _ IH]; [contradiction|]. destruct Hp as [->|Hp]; [apply H | apply IH, Hp]. }
  assert (forall ts, In ts LF -> forall t, In t ts -> zlen t = 3) as HF. { intros ts Hts. apply in_map_iff in Hts as (p & <- & Hp). clear -F2 Hp. induction F2 as [|? q ? ? H _ IH]; [contradiction|]. destruct Hp as [->|Hp]; [apply H | apply IH, Hp]. }
  assert (forall ts, In ts LR -> forall t, In t ts -> zlen t = 4) as HR. { intros ts Hts. apply in_map_iff in Hts as (p & <- & Hp). clear -F2 Hp. induction F2 as [|? q ? ? H _ IH]; [contradiction|]. destruct Hp as [->|Hp]; [apply H | apply IH, Hp]. }
  exists (offset_scan (map zlen LE)), (offset_scan (map zlen LF)), (offset_scan (map zlen LR)), (flat 2 LE), (flat 3 LF), (flat 4 LR), PR.
  split; [|split; [|split; [|split; [|split]]]].
  - unfold swap3d_keys_to_prods. destruct (get_degrees_spec e2et Hlen) as (d & -> & Ld & Gd). cbn [bind].
    assert (mapM (fun edge => loop_size <- zget d edge ;; nplane_tris <- zget swap_mesh_sizes loop_size ;; nplane_edges <- zget nedges loop_size ;; Ok (nplane_edges, nplane_tris + 2 * nplane_edges, 2 * nplane_tris)) keys2edges
      = Ok (map (fun p : list (list Z) * list (list Z) * list (list Z) => (zlen (fst (fst p)), zlen (snd (fst p)), zlen (snd p))) PR)) as ->.
    { apply mapM_ok. eapply (Forall2_map_r _ _ _ _ _ F2). clear -Gd. intros edge p (_ & _ & _ & _ & _ & n & ne & nt & b & e & B1 & B2 & B3 & C1 & C2 & C3 & C4 & C5). rewrite (Gd edge b e B1 B2). cbn [bind]. rewrite B3, C2. cbn [bind]. rewrite C1. cbn [bind]. rewrite C3, C4, C5. reflexivity. }
    cbn [bind]. unfold LE, LF, LR. rewrite !map_map. reflexivity.
  - unfold swap3d_topology. rewrite !offset_scan_last. cbn [bind]. rewrite <- (zlen_flat 2 LE HE), <- (zlen_flat 3 LF HF), <- (zlen_flat 4 LR HR). rewrite !blank_ok by apply zlen_nonneg. cbn [bind].
    assert (length keys2edges = length PR) as Lk by apply (Forall2_len _ _ _ F2).
    assert (forall j, (j <= length PR)%nat -> forM (Z.of_nat j) (repeat None (Z.to_nat (zlen (flat 2 LE))), repeat None (Z.to_nat (zlen (flat 3 LF))), repeat None (Z.to_nat (zlen (flat 4 LR))))
      (fun '(we, wf, wr) key => edge <- zget keys2edges key ;; config <- zget configs edge ;; l <- find_loop e2et et2t codes ev2v tv2v edge ;; '(es, fs, rs) <- key_prods l config ;;
        pe <- zget (offset_scan (map zlen LE)) key ;; pf <- zget (offset_scan (map zlen LF)) key ;; pr <- zget (offset_scan (map zlen LR)) key ;;
        we <- write_block we (pe * 2) (concat es) ;; wf <- write_block wf (pf * 3) (concat fs) ;; wr <- write_block wr (pr * 4) (concat rs) ;; Ok (we, wf, wr))
      = Ok (map Some (flat 2 (firstn j LE)) ++ repeat None (length (flat 2 (skipn j LE))), map Some (flat 3 (firstn j LF)) ++ repeat None (length (flat 3 (skipn j LF))), map Some (flat 4 (firstn j LR)) ++ repeat None (length (flat 4 (skipn j LR))))) as K.
    { induction j as [|j IH]; intros Hj.
      - cbn [firstn skipn flat map concat app]. unfold zlen. rewrite !Nat2Z.id. reflexivity.
      - unfold forM in *. replace (Z.of_nat (S j)) with (Z.of_nat j + 1) by lia. rewrite zrange_succ by lia. rewrite foldM_app, IH by lia. cbn [bind foldM].
        destruct (nth_error keys2edges j) as [edge|] eqn:Ee; [|apply nth_error_None in Ee; lia]. destruct (nth_error PR j) as [p|] eqn:Ep; [|apply nth_error_None in Ep; lia].
        assert (one_key edge = Ok p) as Eo. { clear -F2 Ee Ep. revert j Ee Ep. induction F2 as [|? ? ? ? H _ IH]; intros [|j] E1 E2; cbn in *; try discriminate; [injection E1 as <-; injection E2 as <-; apply H | eauto]. }
        assert (zget keys2edges (Z.of_nat j) = Ok edge) as -> by (apply zget_ok; rewrite Nat2Z.id; split; [lia | exact Ee]). cbn [bind]. unfold one_key in Eo. apply bind_ok in Eo as (config & -> & Eo). cbn [bind]. apply bind_ok in Eo as (l & -> & Eo). cbn [bind]. rewrite Eo. cbn [bind]. destruct p as [[es fs] rs].
        destruct (block_step 2 LE j es [] HE) as (pe & -> & We). { unfold LE. rewrite nth_error_map, Ep. reflexivity. }
        destruct (block_step 3 LF j fs [] HF) as (pf & -> & Wf). { unfold LF. rewrite nth_error_map, Ep. reflexivity. }
        destruct (block_step 4 LR j rs [] HR) as (pr & -> & Wr). { unfold LR. rewrite nth_error_map, Ep. reflexivity. }
        cbn [bind]. rewrite We. cbn [bind]. rewrite Wf. cbn [bind]. rewrite Wr. reflexivity. }
    specialize (K (length PR) (Nat.le_refl _)). replace (zlen keys2edges) with (Z.of_nat (length PR)) by (unfold zlen; congruence). rewrite K. cbn [bind].
    assert (length LE = length PR /\ length LF = length PR /\ length LR = length PR) as (LE1 & LF1 & LR1) by (unfold LE, LF, LR; rewrite !map_length; auto).
    rewrite (firstn_all2 LE), (firstn_all2 LF), (firstn_all2 LR), (skipn_all2 LE), (skipn_all2 LF), (skipn_all2 LR) by lia. cbn [flat map concat length repeat]. rewrite !app_nil_r.
    rewrite !(proj2 (freeze_ok _ _) eq_refl). reflexivity.
  - eapply Forall2_weaken; [|exact F2]. intros edge p (H & G & _). split; [exact G|]. unfold one_key in H. apply bind_ok in H as (config & E1 & H). apply bind_ok in H as (loop & E2 & H). exists config, loop. auto.
  - unfold LE, LF, LR. rewrite !map_map. auto.
  - unfold flat, LE, LF, LR. rewrite !concat_concat_map. auto.
  - intros key p Hp. destruct p as [[es fs] rs]. apply zget_ok in Hp as [Hk Hp]. replace key with (Z.of_nat (Z.to_nat key)) by lia. split; [|split].
    + apply flat_ents; [lia | exact HE | unfold LE; rewrite nth_error_map, Hp; reflexivity].
    + apply flat_ents; [lia | exact HF | unfold LF; rewrite nth_error_map, Hp; reflexivity].
    + apply flat_ents; [lia | exact HR | unfold LR; rewrite nth_error_map, Hp; reflexivity].
Qed.
End topo.

(** ** as stated *)
Lemma find_loop_cyclic e2et et2t codes ev2v tv2v edge e0 e1 l tets :
  cavity e2et et2t codes ev2v tv2v edge e0 e1 l tets ->
  exists l', find_loop e2et et2t codes ev2v tv2v edge = Ok (mk_loop (zlen l) [e0; e1] l') /\ rotated l l' /\ ring_of_tets e0 e1 l' tets.
Proof. intros H. destruct (cavity_loop e2et et2t codes ev2v tv2v edge e0 e1 l tets H) as (b & e & l' & _ & _ & _ & E & _ & R & G). eauto. Qed.

Lemma topo_all e2et et2t codes ev2v tv2v keys2edges configs : 1 <= zlen e2et ->
  (forall edge, In edge keys2edges -> exists e0 e1 l tets config count, cavity e2et et2t codes ev2v tv2v edge e0 e1 l tets /\
     zget configs edge = Ok config /\ zget swap_mesh_counts (zlen l) = Ok count /\ 0 <= config < count) ->
  exists k2e k2f k2r oe of or,
  swap3d_keys_to_prods e2et keys2edges = Ok (k2e, k2f, k2r) /\
  swap3d_topology e2et et2t codes ev2v tv2v keys2edges configs (k2e, k2f, k2r) = Ok (oe, of, or) /\
  forall key edge, zget keys2edges key = Ok edge -> exists es fs rs, swapped e2et et2t codes ev2v tv2v edge (es, fs, rs) /\
    (exists lo hi, zget k2e key = Ok lo /\ zget k2e (key + 1) = Ok hi /\ ents_between 2 oe lo hi = Ok es) /\
    (exists lo hi, zget k2f key = Ok lo /\ zget k2f (key + 1) = Ok hi /\ ents_between 3 of lo hi = Ok fs) /\
    (exists lo hi, zget k2r key = Ok lo /\ zget k2r (key + 1) = Ok hi /\ ents_between 4 or lo hi = Ok rs).
Proof.
  intros H1 H2. destruct (topo_spec e2et et2t codes ev2v tv2v keys2edges configs H1 H2) as (k2e & k2f & k2r & oe & of & or & PR & T1 & T2 & T3 & _ & _ & T4).
  exists k2e, k2f, k2r, oe, of, or. split; [exact T1|]. split; [exact T2|]. intros key edge E.
  assert (exists p, zget PR key = Ok p /\ swapped e2et et2t codes ev2v tv2v edge p) as (p & Ep & G).
  { apply zget_ok in E as [H0 E]. assert (forall (Q : Z -> list (list Z) * list (list Z) * list (list Z) -> Prop) l r, Forall2 Q l r -> forall i x, nth_error l i = Some x -> exists y, nth_error r i = Some y /\ Q x y) as G. { clear. intros Q l r H. induction H as [|a b l r Hab _ IH]; intros [|i] x E; cbn in *; try discriminate; [injection E as <-; eauto | eauto]. }
    destruct (G _ _ _ T3 _ _ E) as (p & Ep & Hs & _). exists p. split; [apply zget_ok; auto | exact Hs]. }
  destruct p as [[es fs] rs]. exists es, fs, rs. split; [exact G|]. exact (T4 key _ Ep).
Qed.
