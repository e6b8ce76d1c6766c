(** Rebuilding the connectivity of a mesh of which a part is replaced: the steps. *)
From Coq Require Import String.
From Verif Require Import Prelude M_Array P_Array M_Par M_Scan S_Sort M_Sort M_Map S_Map P_Map P_Map2 M_Template S_Template P_Template M_Align S_Align P_Align M_Unique S_Unique P_Unique M_Adj S_Adj P_Adj S_Transit P_Transit
  M_Match S_Match P_Match M_Tags M_Modify M_MeshAdj S_MeshAdj P_MeshAdj P_MeshAdj2 P_MeshAdj3 M_Build S_Build P_Build P_Box S_Unmap P_Unmap M_RefineMesh S_Rebuild P_Rebuild.
Local Open Scope Z_scope.

Lemma Forall2_map_eq {A B} (R : A -> B -> Prop) (g : A -> B) l m : Forall2 R l m -> (forall a b, R a b -> g a = b) -> map g l = m.
Proof. intros H K. induction H as [|a b l m Hab H IH]; [reflexivity|]. cbn. rewrite (K a b Hab), IH. reflexivity. Qed.
Lemma Forall2_in_l {A B} (R : A -> B -> Prop) l m x : Forall2 R l m -> In x l -> exists y, In y m /\ R x y.
Proof. intros H. induction H as [|a b l m Hab H IH]; [intros []|]. intros [->|I]; [exists b; split; [left; reflexivity|exact Hab]|]. destruct (IH I) as (y & Iy & Ry). exists y. split; [right; exact Iy|exact Ry]. Qed.

Section steps.
Context (T : topology) (HT : valid_topology T) (r : Z -> numbering) (PV : Z -> list Z) (HF : fits T r PV) (HN : forall d, 0 <= d <= t_dim T -> 0 <= nnew (r d)).
Local Notation F := (t_family T).
Local Notation D := (t_dim T).
Local Notation V := (V T r PV).
Local Notation maps := (fun d => same2old (r d)).

Lemma conn_edges c new : a_family new = F -> a_dim new = D -> a_nents new 1 = -1 ->
  modify_conn c (t_down T 1) new 1 (PV 1) (r 1) (old2new (r 0)) = Ok (Some (with_adj (with_nents new 1 (nnew (r 1))) 1 0 (mk_adj [] (V 1) None))) /\
  set_ents new 1 (mk_adj [] (V 1) None) = Ok (with_adj (with_nents new 1 (nnew (r 1))) 1 0 (mk_adj [] (V 1) None)).
Proof.
  intros Ef Ed N1. pose proof (v_dim T HT) as HD. destruct (V_ok T HT r PV HF HN 1 ltac:(lia)) as (x & y & Ex & Ey & Ej & L & _).
  assert (set_ents new 1 (mk_adj [] (V 1) None) = Ok (with_adj (with_nents new 1 (nnew (r 1))) 1 0 (mk_adj [] (V 1) None))) as ES.
  { apply (set_ents_ok new 1 (mk_adj [] (V 1) None) (nnew (r 1))); try lia; try reflexivity; [apply HN; lia|]. cbn [adj_ab2b]. rewrite Ef. exact L. }
  split; [|exact ES]. unfold modify_conn. rewrite Ef, (v_edges T HT). cbn [adj_ab2b]. change (1 - 1) with 0. rewrite Ex. cbn [bind]. rewrite Ey. cbn [bind]. change (0 <? 0) with false. cbv iota. rewrite Ej. cbn [bind]. rewrite ES. reflexivity.
Qed.

Definition ov (v : Z) : Z := match zget (old2new (r 0)) v with Ok x => x | _ => -1 end.
Lemma renamed row row' : Forall2 (fun v v' => zget (old2new (r 0)) v = Ok v') row row' -> row' = map ov row.
Proof. intros H. symmetry. eapply Forall2_map_eq; [exact H|]. intros a b E. unfold ov. rewrite E. reflexivity. Qed.
Lemma renames row : (forall v, In v row -> In v (same2old (r 0))) -> Forall2 (fun v v' => zget (old2new (r 0)) v = Ok v') row (map ov row).
Proof.
  intros H. pose proof (v_dim T HT) as HD. induction row as [|v row IH]; [constructor|]. cbn. constructor; [|apply IH; intros u Hu; apply H; right; exact Hu].
  destruct (kept_number _ _ (f_numbers T r PV HF 0 ltac:(lia)) v (H v (or_introl eq_refl))) as (_ & y & _ & _ & E & _). unfold ov. rewrite E. reflexivity.
Qed.

Lemma conn_high c new d m1 : 2 <= d <= D -> a_family new = F -> a_dim new = D -> a_nents new d = -1 -> a_nents new 0 = nnew (r 0) -> 0 <= a_nents new (d - 1) ->
  ask_adj c new (d - 1) 0 = Ok (Some (m1, mk_adj [] (V (d - 1)) None)) -> a_family m1 = F -> a_dim m1 = D -> a_nents m1 = a_nents new ->
  a_adjs m1 (d - 1) 0 = Some (mk_adj [] (V (d - 1)) None) -> a_adjs m1 0 (d - 1) = None ->
  exists o, modify_conn c (t_down T d) new d (PV d) (r d) (old2new (r (d - 1))) = Ok o /\
  (forall m', o = Some m' -> exists up hl codes, M_MeshAdj.ask_up c m1 0 (d - 1) = Ok (Some (with_adj m1 0 (d - 1) up, up)) /\
     m' = with_adj (with_nents (with_adj m1 0 (d - 1) up) d (nnew (r d))) d (d - 1) (mk_adj [] hl (Some codes)) /\
     set_ents (with_adj m1 0 (d - 1) up) d (mk_adj [] hl (Some codes)) = Ok m' /\
     zlen hl = nnew (r d) * element_degree F d (d - 1) /\ zlen codes = zlen hl /\ reflects F d (d - 1) (V d) (V (d - 1)) hl codes) /\
  (forall up, invert_adj (mk_adj [] (V (d - 1)) None) (element_degree F (d - 1) 0) (nnew (r 0)) (c_mem c 0 (d - 1)) (c_first c 0 (d - 1)) (c_second c 0 (d - 1)) = Ok (Some up) -> o <> None).
Proof.
  intros Hd Ef Ed Nd N0 Nl HA Ef1 Ed1 En1 A1 A2. pose proof (v_dim T HT) as HD. pose proof (HN 0 ltac:(lia)) as Hn0. pose proof (HN d ltac:(lia)) as Hnd.
  pose proof (V_lists T HT r PV HF HN (d - 1) ltac:(lia)) as Ll. destruct (V_ok T HT r PV HF HN (d - 1) ltac:(lia)) as (_ & _ & _ & _ & _ & _ & Kl).
  destruct (V_ok T HT r PV HF HN d ltac:(lia)) as (_ & _ & _ & _ & _ & LVd & Kd).
  destruct (v_down T HT d ltac:(lia)) as (ab & codes & Etd & La & Lc & RF). pose proof (degree_pos F d (d - 1) ltac:(lia) ltac:(lia)) as P. pose proof (f_keep T r PV HF) as HP.
  pose proof (f_numbers T r PV HF d ltac:(lia)) as Rd. pose proof (f_numbers T r PV HF (d - 1) ltac:(lia)) as Rl. destruct (f_verts T r PV HF d ltac:(lia)) as (LP & DP & BP).
  assert (forall e w s, In e (same2old (r d)) -> 0 <= w < element_degree F d (d - 1) -> zget ab (e * element_degree F d (d - 1) + w) = Ok s -> In s (same2old (r (d - 1)))) as KS.
  { intros e w s He Hw Es. apply (proj2 HP d e w s ltac:(lia) He Hw). rewrite Etd. exact Es. }
  destruct (same_rows T r PV HF HN d (d - 1) (element_degree F d (d - 1)) ab ltac:(lia) ltac:(lia) ltac:(lia) La KS) as (x & y & Ex & Ey & Ly & Gy).
  destruct (ask_up_verts c m1 (d - 1) (V (d - 1)) (nnew (r (d - 1))) ltac:(lia) ltac:(lia)) as (o & Eo & Ho & Hf); try (rewrite ?En1, ?N0; assumption); [rewrite Ef1, En1, N0; exact Ll|]. rewrite Ef1, En1, N0 in Ho, Hf.
  unfold modify_conn. rewrite Ef, Etd. cbn [adj_ab2b adj_codes]. rewrite Ex. cbn [bind]. rewrite Ey. cbn [bind]. destruct (Z.ltb_spec 0 (d - 1)); [|lia]. rewrite HA. unfold bindo at 1. cbn [bind fst snd]. rewrite Eo. destruct o as [res|].
  2:{ unfold bindo. cbn [bind]. eexists. split; [reflexivity|]. split; [intros; discriminate|]. intros up Hup. intros _. eapply Hf; [exact Hup|reflexivity]. }
  destruct (Ho res eq_refl) as (up & -> & HU). unfold bindo. cbn [bind fst snd adj_ab2b].
  destruct (reflect_v2l_spec (PV d) (V (d - 1)) up F d (d - 1) (zlen (prods2new (r d))) (nnew (r (d - 1))) (nnew (r 0)) ltac:(lia) ltac:(lia) LP (proj1 Ll) (proj1 (proj2 Ll)) BP HU) as [K _].
  destruct K as (phl & pcodes & Ep & Lp1 & Lp2 & Rp).
  { intros h u row S. destruct (f_sides T r PV HF d h u row Hd S) as (s & srow & S1 & S2 & S3). exists s. split; [exists srow; split; [apply Kl, S1|exact S2]|]. intros s' (srow' & Q1 & Q2). apply (S3 s' srow'); [apply Kl, Q1|exact Q2]. }
  rewrite Ep. cbn [bind fst snd].
  destruct (join_spec (element_degree F d (d - 1)) _ (r d) true phl y Rd Hnd ltac:(lia) Lp1 Ly) as (hl & Eh & Lh & Gs & Gp). rewrite Eh. cbn [bind]. unfold check at 1. rewrite (rn_len _ _ Rd), Z.eqb_refl. cbn [bind].
  assert (maps_into (same2old (r d)) codes (element_degree F d (d - 1))) as MI. { intros b Hb. apply (proj1 HP d ltac:(lia)) in Hb. split; [lia|]. rewrite Lc, La. apply Z.mul_le_mono_nonneg_r; lia. }
  destruct (unmap_spec (same2old (r d)) codes (element_degree F d (d - 1)) ltac:(lia) MI) as (z & Ez & Lz & Rz). rewrite Ez. cbn [bind].
  destruct (join_spec (element_degree F d (d - 1)) _ (r d) false pcodes z Rd Hnd ltac:(lia) Lp2 Lz) as (cs & Ec & Lcs & Cs & Cp). rewrite Ec. cbn [bind].
  assert (set_ents (with_adj m1 0 (d - 1) up) d (mk_adj [] hl (Some cs)) = Ok (with_adj (with_nents (with_adj m1 0 (d - 1) up) d (nnew (r d))) d (d - 1) (mk_adj [] hl (Some cs)))) as ES.
  { apply set_ents_ok; cbn [with_adj a_dim a_nents a_family adj_ab2b adj_a2ab adj_codes]; rewrite ?Ef1, ?Ed1, ?En1; try lia; try assumption; try reflexivity. destruct (Z.eqb_spec d 1); [lia|]. eauto. }
  rewrite ES. cbn [bind]. eexists. split; [reflexivity|]. split; [|intros; discriminate]. intros m' Em. injection Em as <-. exists up, hl, cs. split; [reflexivity|]. split; [reflexivity|]. split; [exact ES|]. split; [exact Lh|]. split; [congruence|].
  intros e' u row' (hrow' & Rr & Hu & F2). apply Kd in Rr as [(e & hrow & He & Ee & Rr & FR)|(p & Ep' & Rr)].
  - pose proof (renamed _ _ FR) as ->. assert (exists row, Forall2 (fun v x => zget hrow v = Ok x) (side_verts F d (d - 1) u) row /\ row' = map ov row) as (row & F3 & ->).
    { clear - F2. induction F2 as [|v x0 vs xs Hx _ IH]; [exists []; split; [constructor|reflexivity]|]. destruct IH as (row & G & ->). rewrite zget_map in Hx. apply bind_ok in Hx as (y0 & Ey0 & Hx). injection Hx as <-. exists (y0 :: row). split; [constructor; assumption|reflexivity]. }
    destruct (RF e u row (ex_intro _ hrow (conj Rr (conj Hu F3)))) as (l & code & lrow & El & Ecode & Rlr & Al & Hr).
    destruct (kept_number _ _ Rd e He) as (i & e1 & Ei & Ei' & Eo' & _). assert (e1 = e') as -> by congruence. destruct (Gs i e' u Ei' Hu) as (s' & Q1 & Q2). destruct (Gy i e u Ei Hu) as (s & s2 & Q3 & Q4 & Q5). assert (s2 = s') as -> by congruence. assert (s = l) as -> by congruence.
    destruct (Cs i e' u Ei' Hu) as (c1 & Q6 & Q7). rewrite (Rz i e u Ei Hu), Ecode in Q6. injection Q6 as <-. exists s', code, (map ov lrow). split; [exact Q2|]. split; [exact Q7|].
    pose proof (KS e u l He Hu El) as Il. split; [apply Kl; left; exists l, lrow; split; [exact Il|]; split; [exact Q5|]; split; [exact Rlr|apply renames; exact (kept_verts T HT r PV HF HN (d - 1) l lrow ltac:(lia) Il Rlr)]|].
    split; [|exact Hr]. apply align_map; [apply low_degree; lia|apply Rlr|exact Al].
  - destruct (Rp p u row' (ex_intro _ hrow' (conj Rr (conj Hu F2)))) as (l & code & lrow & El & Ecode & Rlr & Al & fl & rr & -> & Hrr). destruct (Gp p e' u Ep' Hu) as (s' & Q1 & Q2). rewrite El in Q1. injection Q1 as <-. destruct (Cp p e' u Ep' Hu) as (c1 & Q3 & Q4). rewrite Ecode in Q3. injection Q3 as <-.
    exists l, (make_code fl rr 0), lrow. repeat (split; [assumption|]). apply code_small; [apply low_degree; lia|assumption].
Qed.
End steps.
