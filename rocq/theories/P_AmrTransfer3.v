(** Proofs for C86, continued: inherited tags. *)
From Coq Require Import Lia.
From Verif Require Import Prelude M_Array M_Par M_Scan S_Scan M_Sort M_Map S_Map M_Align M_Adj M_Parents M_Template P_Array P_Map P_Map2 P_Align P_Graph P_Mark M_AmrTopo S_AmrTopo P_AmrTopo P_AmrTopo2 M_AmrTransfer S_AmrTransfer P_AmrTransfer P_AmrTransfer2.
Local Open Scope Z_scope.

Section inherit.
Variable dim : Z.
Variable mods p2n s2o s2n old_data : Z -> list Z.
Variable np : Z -> parents.
Variable nold nnew : Z -> Z.
Hypothesis HD : 1 <= dim <= 3.
Hypothesis N : forall d, 0 <= d <= dim -> new_numbers dim d mods (p2n d) (s2o d) (s2n d) (nold d) (nnew d).
Hypothesis HL : forall d, 0 <= d <= dim -> zlen (old_data d) = nold d.

Definition gives (pd e x : Z) : Prop := exists q c o, zget (fst (np pd)) e = Ok q /\ zget (snd (np pd)) e = Ok c /\ 0 <= code_parent_dim c <= dim /\
  same_as (s2o (code_parent_dim c)) (s2n (code_parent_dim c)) q o /\ zget (old_data (code_parent_dim c)) o = Ok x.
Hypothesis V : forall pd e, 0 <= pd <= dim -> In e (p2n pd) -> exists x, gives pd e x.
Definition inv (k j : Z) (nd : list (list (option Z))) : Prop := zlen nd = dim + 1 /\ forall d, 0 <= d <= dim -> exists w, zget nd d = Ok w /\ zlen w = nnew d /\ allsome w /\
  (forall e o x, same_as (s2o d) (s2n d) e o -> zget (old_data d) o = Ok x -> zget w e = Ok (Some x)) /\
  (forall i e, zget (p2n d) i = Ok e -> d < k \/ (d = k /\ i < j) -> exists x, gives d e x /\ zget w e = Ok (Some x)).

Lemma inv_step k j nd : 0 <= k <= dim -> 0 <= j < zlen (p2n k) -> inv k j nd -> exists nd', inherit_prod p2n np k nd j = Ok nd' /\ inv k (j + 1) nd'.
Proof.
  intros Hk Hj (L & I). unfold inherit_prod. destruct (zget_in_range (p2n k) j Hj) as (e & He). rewrite He. cbn [bind]. pose proof (zget_In _ _ _ He) as Ie.
  destruct (V k e Hk Ie) as (x & q & c & o & Eq' & Ec & Hc & Hs & Hx). rewrite Eq', Ec. cbn [bind]. destruct (I _ Hc) as (wf & Ef & _ & _ & Sf & _). rewrite Ef. cbn [bind]. rewrite (Sf q o x Hs Hx). cbn [bind].
  destruct (I k Hk) as (w & Ew & Lw & Aw & Sw & Pw). rewrite Ew. cbn [bind]. assert (Be : 0 <= e < zlen w) by (rewrite Lw; apply (nu_new _ _ _ _ _ _ _ _ (N k Hk)), in_or_app; left; exact Ie).
  destruct (zset_in_range w e (Some x) Be) as (w' & E'). rewrite E'. cbn [bind]. destruct (zset_in_range nd k w') as (nd' & E2); [lia|]. exists nd'. split; [exact E2|]. split; [rewrite (zset_zlen _ _ _ _ E2); exact L|].
  destruct (n_parts _ _ _ _ _ _ nold _ (N k Hk)) as (N1 & _ & N3).
  assert (C : forall e', zget w' e' = if e' =? e then Ok (Some x) else zget w e'). { intros e'. destruct (Z.eqb_spec e' e) as [->|Ne]; [eapply zset_get_eq; exact E'|eapply zset_get_ne; [exact E'|congruence]]. }
  intros d Hd. destruct (Z.eq_dec d k) as [->|Ne].
  - exists w'. split; [eapply zset_get_eq; exact E2|]. split; [rewrite (zset_zlen _ _ _ _ E'); exact Lw|]. split; [|split].
    + intros i Hi. rewrite (zset_zlen _ _ _ _ E') in Hi. rewrite C. destruct (i =? e); [eauto|apply Aw, Hi].
    + intros e' o' x' Hs' Hx'. rewrite C. destruct (Z.eqb_spec e' e) as [->|_]; [exfalso; apply (N3 e Ie); eapply same_in; exact Hs'|exact (Sw e' o' x' Hs' Hx')].
    + intros i e' Hi [?|[_ Hij]]; [lia|]. rewrite C. destruct (Z.eqb_spec e' e) as [->|Ne]; [exists x; split; [exists q, c, o; auto|reflexivity]|]. apply (Pw i e' Hi). right. split; [reflexivity|]. assert (i <> j) by (intros ->; congruence). lia.
  - destruct (I d Hd) as (w2 & Ew2 & R1 & R2 & R3 & R4). exists w2. split; [rewrite (zset_get_ne _ _ _ _ _ E2) by congruence; exact Ew2|]. split; [exact R1|]. split; [exact R2|]. split; [exact R3|]. intros i e' Hi Ho. apply (R4 i e' Hi). lia.
Qed.

Lemma transfer_inherit_g : exists new, transfer_inherit dim 1 p2n s2o s2n old_data np nnew = Ok new /\ forall d, 0 <= d <= dim -> exists l, zget new d = Ok l /\ zlen l = nnew d /\
  (forall e o x, same_as (s2o d) (s2n d) e o -> zget (old_data d) o = Ok x -> zget l e = Ok x) /\
  (forall e, In e (p2n d) -> exists x, gives d e x /\ zget l e = Ok x).
Proof.
  unfold transfer_inherit.
  destruct (tab_total (dim + 1) (fun d => inherit_same 1 (s2o d) (s2n d) (old_data d) (nnew d))) as (nd & E & Ln & G); [lia| |].
  { intros d Hd. unfold inherit_same. destruct (filled_some (nnew d) (-1)) as (w0 & -> & L0 & S0); [apply (nu_size _ _ _ _ _ _ _ _ (N d ltac:(lia)))|]. cbn [bind]. destruct (same_unmap _ _ _ _ _ _ nold _ (N d ltac:(lia)) (old_data d)) as (sd & -> & Ls & Gs); [apply HL; lia|]. cbn [bind].
    destruct (same_step _ _ _ _ _ _ nold _ (N d ltac:(lia)) sd w0 Ls L0 S0) as (w1 & -> & _). eauto. }
  unfold tabulate in E. rewrite E. cbn [bind]. assert (I0 : inv 0 0 nd).
  { split; [exact Ln|]. intros d Hd. rewrite G by lia. unfold inherit_same. destruct (filled_some (nnew d) (-1)) as (w0 & -> & L0 & S0); [apply (nu_size _ _ _ _ _ _ _ _ (N d ltac:(lia)))|]. cbn [bind]. destruct (same_unmap _ _ _ _ _ _ nold _ (N d ltac:(lia)) (old_data d)) as (sd & -> & Ls & Gs); [apply HL; lia|]. cbn [bind].
    destruct (same_step _ _ _ _ _ _ nold _ (N d ltac:(lia)) sd w0 Ls L0 S0) as (w1 & -> & L1 & S1 & G1 & _). exists w1. split; [reflexivity|]. split; [exact L1|]. split; [exact S1|]. split.
    - intros e o x (s & Hs & Hso) Hx. apply (G1 s); [exact Hs|]. rewrite (Gs s o Hso). exact Hx.
    - intros i e Hi H. pose proof (zget_bounds _ _ _ Hi). lia. }
  destruct (forM_invariant (fun k nd => inv k 0 nd) (dim + 1) nd (fun new_data prod_dim => forM (zlen (p2n prod_dim)) new_data (inherit_prod p2n np prod_dim))) as (nd2 & E2 & L2 & I2); [lia|exact I0| |].
  { intros k nd1 Hk I1. destruct (forM_invariant (fun j nd => inv k j nd) (zlen (p2n k)) nd1 (inherit_prod p2n np k)) as (nd2 & E2 & L2 & I2); [apply zlen_nonneg|exact I1|intros j nd' Hj I'; apply inv_step; [lia|exact Hj|exact I']|].
    exists nd2. split; [exact E2|]. split; [exact L2|]. intros d Hd. destruct (I2 d Hd) as (w & R1 & R2 & R3 & R4 & R5). exists w. split; [exact R1|]. split; [exact R2|]. split; [exact R3|]. split; [exact R4|].
    intros i e Hi H. apply (R5 i e Hi). pose proof (zget_bounds _ _ _ Hi). destruct (Z.eq_dec d k) as [->|]; [right; lia|left; lia]. }
  unfold forM in E2 at 1. rewrite E2. cbn [bind].
  destruct (mapM_total freeze nd2) as (new & En). { intros w Hw. apply In_zget in Hw as (d & Hd). pose proof (zget_bounds _ _ _ Hd). destruct (I2 d) as (w' & A & _ & B & _); [lia|]. assert (w' = w) by congruence. subst w'. destruct (allsome_freeze w B) as (l & -> & _). eauto. }
  exists new. split; [exact En|]. intros d Hd. destruct (I2 d Hd) as (w & R1 & R2 & R3 & R4 & R5). destruct (mapM_get _ _ _ _ _ En R1) as (l & Gl & Fl). exists l. split; [exact Gl|]. destruct (allsome_freeze w R3) as (l' & F' & Ll & Gf). assert (l' = l) by congruence. subst l'.
  split; [lia|]. split; [intros e o x Hs Hx; apply Gf; exact (R4 e o x Hs Hx)|]. intros e He. apply In_zget in He as (i & Hi). destruct (R5 i e Hi) as (x & A & B); [left; lia|]. exists x. split; [exact A|apply Gf, B].
Qed.
End inherit.

Lemma transfer_inherit_w dim mods p2n s2o s2n old2new old_data (old_parents np : Z -> parents) nold nnew :
  1 <= dim <= 3 -> (forall d, 0 <= d <= dim -> new_numbers dim d mods (p2n d) (s2o d) (s2n d) (nold d) (nnew d)) -> refine_old dim mods nold ->
  (forall d, 0 <= d <= dim -> zlen (old_data d) = nold d) -> (forall d, 0 <= d <= dim -> zlen (old2new d) = nold d) ->
  (forall d, 0 <= d <= dim -> renumbers (s2o d) (s2n d) (old2new d)) -> (forall d o, 1 <= d <= dim -> In o (mods d) -> In o (s2o d)) ->
  (forall d, 0 <= d <= dim -> parents_ok dim nold d (old_parents d)) ->
  (forall d, 0 <= d <= dim -> transfer_parents dim d mods (p2n d) (s2o d) (s2n d) old2new (old_parents d) (nnew d) = Ok (np d)) ->
  exists new, transfer_inherit dim 1 p2n s2o s2n old_data np nnew = Ok new /\ forall pd, 0 <= pd <= dim -> exists l, zget new pd = Ok l /\ zlen l = nnew pd /\
  (forall e d md p, made_of dim pd mods (p2n pd) e d md p -> zget l e = zget (old_data d) md) /\
  (forall e o, same_as (s2o pd) (s2n pd) e o -> zget l e = zget (old_data pd) o).
Proof.
  intros HD N R HL HO HR HM HP HT.
  assert (K : forall pd e d md p, 0 <= pd <= dim -> made_of dim pd mods (p2n pd) e d md p -> exists q c x, zget (fst (np pd)) e = Ok q /\ zget (snd (np pd)) e = Ok c /\ code_parent_dim c = d /\ 0 <= d <= dim /\ same_as (s2o d) (s2n d) q md /\ zget (old_data d) md = Ok x).
  { intros pd e d md p Hpd M. destruct (transfer_parents_w dim pd mods (p2n pd) (s2o pd) (s2n pd) nold (nnew pd) (N pd Hpd) R old2new (old_parents pd) (HP pd Hpd) HO) as (new & E & _ & _ & A & _). rewrite (HT pd Hpd) in E. inversion E; subst new.
    destruct (A e d md p M) as (A1 & c & A2 & A3 & _). destruct M as (m & Hd & Hm & _ & _). pose proof (zget_In _ _ _ Hm) as Im. assert (D : 0 <= d <= dim) by lia. pose proof (HM d md ltac:(lia) Im) as Is. apply In_zget in Is as (s & Hs).
    destruct (zget_in_range (s2n d) s) as (q & Hq); [rewrite <- (nu_same _ _ _ _ _ _ _ _ (N d D)); eapply zget_bounds; exact Hs|]. assert (S : same_as (s2o d) (s2n d) q md) by (exists s; auto).
    destruct (zget_in_range (old_data d) md) as (x & Hx); [rewrite HL by exact D; apply R; [lia|exact Im]|]. exists q, c, x. rewrite A1, (HR d D q md S). auto 10. }
  destruct (transfer_inherit_g dim mods p2n s2o s2n old_data np nold nnew HD N HL) as (new & E & G).
  { intros pd e Hpd He. destruct (prods_made dim pd mods (p2n pd) (s2o pd) (s2n pd) nold (nnew pd) (N pd Hpd) e He) as (d & md & p & M). destruct (K pd e d md p Hpd M) as (q & c & x & A & B & <- & C & D & F). exists x, q, c, md. auto. }
  exists new. split; [exact E|]. intros pd Hpd. destruct (G pd Hpd) as (l & G1 & G2 & G3 & G4). exists l. split; [exact G1|]. split; [exact G2|]. split.
  - intros e d md p M. destruct (G4 e (made_in _ _ _ _ _ _ _ _ M)) as (x & (q & c & o & A1 & A2 & A3 & A4 & A5) & Gx). destruct (K pd e d md p Hpd M) as (q' & c' & x' & B1 & B2 & B3 & B4 & B5 & B6). assert (q' = q) by congruence. assert (c' = c) by congruence. subst q' c'. rewrite B3 in *.
    destruct (n_parts _ _ _ _ _ _ nold _ (N d B4)) as (_ & ND & _). destruct A4 as (s & A & B), B5 as (s' & A' & B'). assert (s = s') by (eapply NoDup_zget; [exact ND|exact A|exact A']). subst s'. assert (o = md) by congruence. subst o. congruence.
  - intros e o S. destruct S as (s & A & B). destruct (zget_in_range (old_data pd) o) as (x & Hx); [rewrite HL by exact Hpd; apply (nu_old _ _ _ _ _ _ _ _ (N pd Hpd)); eapply zget_In; exact B|]. rewrite Hx. apply (G3 e o x); [exists s; auto|exact Hx].
Qed.
