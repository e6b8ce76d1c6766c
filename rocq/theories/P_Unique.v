From Verif Require Import Prelude M_Array P_Array P_Graph M_Sort S_Sort P_Sort M_Map S_Map P_Map P_Map2 P_Invert M_Template S_Template P_Template M_Align S_Align P_Align M_Unique S_Unique.
Local Open Scope Z_scope.

(** ** polygons *)
Lemma align_len {A} n code (l l' : list A) : 2 <= n <= 4 -> zlen l = n -> align_adj n code l = Ok l' -> zlen l' = n.
Proof. intros Hn Hl E. destruct (align_spec n code l Hn Hl) as (l2 & E2 & H & _). congruence. Qed.
Lemma code_small b r n : 2 <= n <= 4 -> 0 <= r < n -> code_rotation (make_code b r 0) < n.
Proof. intros Hn Hr. destruct (code_fields b r 0 ltac:(lia) ltac:(lia)) as (_ & -> & _). lia. Qed.
Lemma same_polygon_zlen {A} (l l' : list A) : same_polygon l l' -> zlen l' = zlen l.
Proof. intros [(a & b & E & ->)|(a & b & E & ->)]; [subst l; rewrite !zlen_app; lia|]. assert (zlen (rev l) = zlen l) as H by (unfold zlen; rewrite rev_length; reflexivity). rewrite E in H. rewrite !zlen_app in *. lia. Qed.
Lemma same_polygon_refl {A} (l : list A) : same_polygon l l.
Proof. left. exists l, []. rewrite app_nil_r. auto. Qed.
Lemma same_polygon_trans {A} (l m k : list A) : 2 <= zlen l <= 4 -> same_polygon l m -> same_polygon m k -> same_polygon l k.
Proof.
  intros Hn H1 H2. pose proof (same_polygon_zlen _ _ H1) as L1.
  destruct (polygon_reached (zlen l) l m Hn eq_refl H1) as (b1 & r1 & R1 & E1). destruct (polygon_reached (zlen l) m k Hn L1 H2) as (b2 & r2 & R2 & E2).
  eapply polygon_spec; [exact Hn|reflexivity|]. eapply compound_spec; [exact Hn|reflexivity| | |exact E1|exact E2]; apply code_small; assumption.
Qed.
Lemma same_polygon_sym {A} (l m : list A) : 2 <= zlen l <= 4 -> same_polygon l m -> same_polygon m l.
Proof.
  intros Hn H1. pose proof (same_polygon_zlen _ _ H1) as L1. destruct (polygon_reached (zlen l) l m Hn eq_refl H1) as (b1 & r1 & R1 & E1).
  eapply polygon_spec; [exact Hn|exact L1|]. eapply inverse_spec; [exact Hn|reflexivity| |exact E1]. apply code_small; assumption.
Qed.
Lemma same_polygon_NoDup {A} (l m : list A) : same_polygon l m -> NoDup l -> NoDup m.
Proof.
  intros [(a & b & -> & ->)|(a & b & E & ->)] H.
  - eapply Permutation_NoDup; [apply Permutation_app_comm|exact H].
  - eapply Permutation_NoDup; [|exact H]. rewrite (Permutation_rev l), E. apply Permutation_app_comm.
Qed.

(** ** the canonical reading *)
Definition canonical (l : list Z) : Prop :=
  match l with
  | [a; b] => a < b
  | [a; b; c] => a < b /\ b < c
  | [a; b; c; d] => a < b /\ a < c /\ b < d
  | _ => False
  end.

Lemma canonical_unique l m : 2 <= zlen l <= 4 -> canonical l -> canonical m -> same_polygon l m -> l = m.
Proof.
  intros Hn C1 C2 H. destruct (polygon_reached (zlen l) l m Hn eq_refl H) as (b & r & R & E). rewrite align_act in E.
  destruct (code_fields b r 0 ltac:(lia) ltac:(lia)) as (E1 & E2 & _). rewrite E1, E2 in E. clear E1 E2 H. remember (zlen l) as n eqn:Hl. symmetry in Hl.
  destruct b; polygon l Hl; rots r R; try lia; vm_compute in E; injection E as <-; try reflexivity; cbn in C1, C2; try lia.
  all: assert (x0 = x) by lia; subst; reflexivity.
Qed.

Lemma code_canonical n l : 2 <= n <= 4 -> zlen l = n -> NoDup l ->
  exists code l', code_to_canonical n l = Ok code /\ align_adj n code l = Ok l' /\ canonical l' /\ same_polygon l l'.
Proof.
  intros Hn Hl ND.
  assert (exists code l', code_to_canonical n l = Ok code /\ align_adj n code l = Ok l' /\ canonical l') as (code & l' & H1 & H2 & H3).
  { polygon l Hl; repeat match goal with H : NoDup (_ :: _) |- _ => apply NoDup_cons_iff in H as [? ?] end; cbn [In] in *.
    - unfold code_to_canonical. change (zfromto 1 2) with [1].
      assert (zget [x; x0] 0 = Ok x) as -> by reflexivity. cbn [bind foldM]. assert (zget [x; x0] 1 = Ok x0) as -> by reflexivity. cbn [bind foldM].
      destruct (Z.ltb_spec x0 x); cbn [fst];
      (match goal with |- context [rotate_adj 2 ?r ?l] => let v := eval vm_compute in (rotate_adj 2 r l) in change (rotate_adj 2 r l) with v end);
      cbn [bind is_flipped]; eexists; eexists; (split; [reflexivity|]); (split; [vm_compute; reflexivity|]); cbn; lia.
    - unfold code_to_canonical. change (zfromto 1 3) with [1; 2].
      assert (zget [x; x0; x1] 0 = Ok x) as -> by reflexivity. cbn [bind foldM].
      assert (zget [x; x0; x1] 1 = Ok x0) as E1 by reflexivity.       assert (zget [x; x0; x1] 2 = Ok x1) as E2 by reflexivity. 
      rewrite E1. cbn [bind foldM]. destruct (Z.ltb_spec x0 x); rewrite E2; cbn [bind foldM];
      match goal with |- context [x1 <? ?y] => destruct (Z.ltb_spec x1 y) end; cbn [fst];
      (match goal with |- context [rotate_adj 3 ?r ?l] => let v := eval vm_compute in (rotate_adj 3 r l) in change (rotate_adj 3 r l) with v end);
      cbn [bind]; (match goal with |- context [is_flipped 3 [?p; ?q; ?t]] => change (is_flipped 3 [p; q; t]) with (Ok (t <? q)) end); cbn [bind];
      repeat match goal with |- context [?p <? ?q] => destruct (Z.ltb_spec p q) end; try lia;
      eexists; eexists; (split; [reflexivity|]); (split; [vm_compute; reflexivity|]); cbn; lia.
    - unfold code_to_canonical. change (zfromto 1 4) with [1; 2; 3].
      assert (zget [x; x0; x1; x2] 0 = Ok x) as -> by reflexivity. cbn [bind foldM].
      assert (zget [x; x0; x1; x2] 1 = Ok x0) as E1 by reflexivity.       assert (zget [x; x0; x1; x2] 2 = Ok x1) as E2 by reflexivity.       assert (zget [x; x0; x1; x2] 3 = Ok x2) as E3 by reflexivity. 
      rewrite E1. cbn [bind foldM]. destruct (Z.ltb_spec x0 x); rewrite E2; cbn [bind foldM];
      match goal with |- context [x1 <? ?y] => destruct (Z.ltb_spec x1 y) end; rewrite E3; cbn [bind foldM];
      match goal with |- context [x2 <? ?y] => destruct (Z.ltb_spec x2 y) end; cbn [fst];
      (match goal with |- context [rotate_adj 4 ?r ?l] => let v := eval vm_compute in (rotate_adj 4 r l) in change (rotate_adj 4 r l) with v end);
      cbn [bind]; (match goal with |- context [is_flipped 4 [?p; ?q; ?t; ?w]] => change (is_flipped 4 [p; q; t; w]) with (Ok (w <? q)) end); cbn [bind];
      repeat match goal with |- context [?p <? ?q] => destruct (Z.ltb_spec p q) end; try lia;
      eexists; eexists; (split; [reflexivity|]); (split; [vm_compute; reflexivity|]); cbn; lia. }
  exists code, l'. split; [exact H1|]. split; [exact H2|]. split; [exact H3|]. eapply polygon_spec; eassumption.
Qed.

(** ** rows and tuples *)
Lemma row_is_tuple {A} deg (l : list A) n e : 0 <= deg -> zlen l = n * deg -> 0 <= e < n -> row_is deg l e (tuple l deg e).
Proof.
  intros Hd Hl He. split; [apply tuple_length with n; assumption|]. intros j Hj. rewrite tuple_get by lia.
  destruct (zget_in_range l (e * deg + j) ltac:(nia)) as (x & Hx). eauto.
Qed.
Lemma row_is_range {A} deg (l : list A) n e row : 0 < deg -> zlen l = n * deg -> row_is deg l e row -> 0 <= e < n.
Proof.
  intros Hd Hl [_ H]. destruct (H 0 ltac:(lia)) as (x & Hx & _). apply zget_bounds in Hx. nia.
Qed.
Lemma row_is_eq {A} deg (l : list A) n e row : 0 < deg -> zlen l = n * deg -> row_is deg l e row -> row = tuple l deg e.
Proof. intros Hd Hl H. eapply row_is_unique; [exact H|]. apply row_is_tuple with n; [lia|exact Hl|eapply row_is_range; eassumption]. Qed.

Lemma canon_rows deg uv2v n : 2 <= deg <= 4 -> zlen uv2v = n * deg -> rows_distinct deg uv2v ->
  exists codes canon, get_codes_to_canonical deg uv2v = Ok codes /\ align_ev2v deg uv2v codes = Ok canon /\ zlen canon = n * deg /\
  forall u, 0 <= u < n -> canonical (tuple canon deg u) /\ same_polygon (tuple uv2v deg u) (tuple canon deg u).
Proof.
  intros Hd Hl HD. pose proof (zlen_nonneg uv2v) as Hn0. assert (0 <= n) as Hn by nia.
  assert (get_codes_to_canonical deg uv2v = get_codes_to_canonical_deg deg uv2v) as ->.
  { unfold get_codes_to_canonical. assert (deg = 2 \/ deg = 3 \/ deg = 4) as K by lia. destruct K as [->|[->| ->]]; reflexivity. }
  assert (divide_no_remainder (zlen uv2v) deg = Ok n) as Ediv.
  { unfold divide_no_remainder. rewrite Hl. destruct (Z.eqb_spec deg 0); [lia|]. cbn [negb check bind].
    rewrite Z.rem_mul by lia. cbn [Z.eqb check bind]. rewrite Z.quot_mul by lia. reflexivity. }
  unfold get_codes_to_canonical_deg. rewrite Ediv. cbn [bind].
  set (f := fun e => row <- get_row deg uv2v e ;; code_to_canonical deg row).
  assert (forall e, 0 <= e < n -> exists code l', get_row deg uv2v e = Ok (tuple uv2v deg e) /\ code_to_canonical deg (tuple uv2v deg e) = Ok code /\
     align_adj deg code (tuple uv2v deg e) = Ok l' /\ canonical l' /\ same_polygon (tuple uv2v deg e) l') as K.
  { intros e He. assert (row_is deg uv2v e (tuple uv2v deg e)) as Hrow by (apply row_is_tuple with n; [lia|exact Hl|exact He]).
    destruct (code_canonical deg (tuple uv2v deg e) Hd (proj1 Hrow) (HD e _ Hrow)) as (code & l' & H).
    exists code, l'. split; [apply get_row_is; [lia|exact Hrow]|exact H]. }
  destruct (mapM_total f (zrange n)) as (codes & E).
  { intros e He. apply in_zrange in He. destruct (K e He) as (code & l' & E1 & E2 & _). exists code. unfold f. rewrite E1. exact E2. }
  change (mapM f (zrange n)) with (tabulate n f) in E. rewrite E. apply (tabulate_ok n f codes Hn) in E as [Lc E].
  destruct (align_ev2v_spec deg uv2v codes Hd ltac:(rewrite Lc; exact Hl)) as (canon & Ec & Hc & G).
  exists codes, canon. split; [reflexivity|]. split; [exact Ec|]. split; [lia|]. intros u Hu.
  destruct (E u Hu) as (code & Hf & Hg). destruct (K u Hu) as (code' & l' & E1 & E2 & E3 & E4 & E5). unfold f in Hf. rewrite E1 in Hf. cbn [bind] in Hf. rewrite E2 in Hf.
  assert (code' = code) as -> by congruence.
  destruct (G u code (tuple uv2v deg u) Hg) as (row' & A1 & A2). { apply row_is_tuple with n; [lia|exact Hl|exact Hu]. }
  assert (row' = l') as -> by congruence. rewrite <- (row_is_eq deg canon n u l') by (lia || assumption). auto.
Qed.

Lemma are_equal_spec deg canon n e0 e1 : 0 < deg -> zlen canon = n * deg -> 0 <= e0 < n -> 0 <= e1 < n ->
  exists b, are_equal deg canon e0 e1 = Ok b /\ (b = true <-> tuple canon deg e0 = tuple canon deg e1).
Proof.
  intros Hd Hl H0 H1. unfold are_equal.
  assert (forall k, (k <= Z.to_nat deg)%nat -> exists b, are_equal_from canon (e0 * deg) (e1 * deg) (map (fun i => deg - Z.of_nat k + i) (zrange (Z.of_nat k))) = Ok b /\
     (b = true <-> forall j, deg - Z.of_nat k <= j < deg -> zget canon (e0 * deg + j) = zget canon (e1 * deg + j))) as K.
  { induction k as [|k IH]; intros Hk.
    - exists true. split; [reflexivity|]. split; [|reflexivity]. intros _ j Hj. lia.
    - rewrite zrange_split_0 by lia. cbn [map are_equal_from].
      destruct (zget_in_range canon (e0 * deg + (deg - Z.of_nat (S k) + 0)) ltac:(nia)) as (x & Hx). destruct (zget_in_range canon (e1 * deg + (deg - Z.of_nat (S k) + 0)) ltac:(nia)) as (y & Hy).
      rewrite Hx, Hy. cbn [bind]. destruct (Z.eqb_spec x y) as [->|Hne].
      + destruct (IH ltac:(lia)) as (b & E & Hb). exists b. rewrite map_map. replace (Z.of_nat (S k) - 1) with (Z.of_nat k) by lia.
        rewrite (map_ext _ (fun i => deg - Z.of_nat k + i)) by (intros; lia). split; [exact E|]. rewrite Hb. split; intros H j Hj.
        * destruct (Z.eq_dec j (deg - Z.of_nat (S k) + 0)) as [->|]; [congruence|]. apply H. lia.
        * apply H. lia.
      + exists false. split; [reflexivity|]. split; [discriminate|]. intros H. specialize (H (deg - Z.of_nat (S k) + 0) ltac:(lia)). rewrite Hx, Hy in H. congruence. }
  destruct (K (Z.to_nat deg) ltac:(lia)) as (b & E & Hb). exists b.
  rewrite Z2Nat.id in E, Hb by lia. rewrite (map_ext _ (fun i => i)) in E by (intros; lia). rewrite map_id in E. split; [exact E|].
  rewrite Hb. split; intros H.
  - apply list_eq_zget; [rewrite !(tuple_length canon n) by (lia || assumption); reflexivity|]. intros j Hj.
    rewrite (tuple_length canon n) in Hj by (lia || assumption). rewrite !tuple_get by lia. apply H. lia.
  - intros j Hj. rewrite <- !tuple_get by lia. rewrite H. reflexivity.
Qed.

Lemma jumps_spec deg canon n p : 0 < deg -> zlen canon = n * deg -> zlen p = n -> (forall u, In u p -> 0 <= u < n) ->
  exists jumps, find_canonical_jumps deg canon p = Ok jumps /\ zlen jumps = n /\ (forall m, In m jumps -> m = 0 \/ m = 1) /\
  forall i u, zget p i = Ok u -> (zget jumps i = Ok 1 <-> i = n - 1 \/ exists u', zget p (i + 1) = Ok u' /\ tuple canon deg u <> tuple canon deg u').
Proof.
  intros Hd Hl Hp Hr. pose proof (zlen_nonneg p) as Hn. rewrite Hp in Hn. unfold find_canonical_jumps. rewrite Hp. rewrite filled_ok by lia. cbn [bind].
  set (st := fun jumps e_sorted => e0 <- zget p e_sorted ;; e1 <- zget p (e_sorted + 1) ;; eq <- are_equal deg canon e0 e1 ;; if (eq : bool) then Ok jumps else zset jumps e_sorted 1).
  assert (exists J, forM (Z.max 0 (n - 1)) (repeat 0 (Z.to_nat n)) st = Ok J /\ (zlen J = n /\ (forall i, Z.max 0 (n - 1) <= i < n -> zget J i = Ok 0) /\
     forall i u u', 0 <= i < Z.max 0 (n - 1) -> zget p i = Ok u -> zget p (i + 1) = Ok u' -> (tuple canon deg u = tuple canon deg u' -> zget J i = Ok 0) /\ (tuple canon deg u <> tuple canon deg u' -> zget J i = Ok 1))) as (J & E & LJ & J0 & J1).
  { apply (forM_invariant (fun k J => zlen J = n /\ (forall i, k <= i < n -> zget J i = Ok 0) /\
      forall i u u', 0 <= i < k -> zget p i = Ok u -> zget p (i + 1) = Ok u' -> (tuple canon deg u = tuple canon deg u' -> zget J i = Ok 0) /\ (tuple canon deg u <> tuple canon deg u' -> zget J i = Ok 1))).
    - lia.
    - split; [rewrite zlen_repeat; lia|]. split; [intros i Hi; apply zget_repeat; lia|intros; lia].
    - intros k J Hk (L & Z0 & Z1). unfold st.
      destruct (zget_in_range p k ltac:(lia)) as (u & Hu). destruct (zget_in_range p (k + 1) ltac:(lia)) as (u' & Hu'). rewrite Hu, Hu'. cbn [bind].
      destruct (are_equal_spec deg canon n u u' Hd Hl) as (b & Eb & Hb); [apply Hr; eapply zget_In; eassumption..|]. rewrite Eb. cbn [bind].
      destruct b.
      + exists J. split; [reflexivity|]. split; [exact L|]. split; [intros i Hi; apply Z0; lia|]. intros i v v' Hi Hv Hv'.
        destruct (Z.eq_dec i k) as [->|]; [|apply (Z1 i v v'); [lia|assumption..]]. assert (v = u) by congruence. assert (v' = u') by congruence. subst. split; intros H; [apply Z0; lia|]. exfalso. apply H, Hb. reflexivity.
      + destruct (zset_in_range J k 1 ltac:(lia)) as (J' & EJ). exists J'. split; [exact EJ|]. split; [rewrite (zset_zlen _ _ _ _ EJ); exact L|]. split.
        * intros i Hi. rewrite (zset_get_ne _ _ _ _ _ EJ) by lia. apply Z0. lia.
        * intros i v v' Hi Hv Hv'. destruct (Z.eq_dec i k) as [->|].
          -- assert (v = u) by congruence. assert (v' = u') by congruence. subst. split; intros H; [apply Hb in H; discriminate|]. eapply zset_get_eq; eassumption.
          -- rewrite (zset_get_ne _ _ _ _ _ EJ) by lia. apply (Z1 i v v'); [lia|assumption..]. }
  rewrite E. cbn [bind]. rewrite LJ. destruct (Z.eqb_spec n 0) as [->|Hne].
  - exists J. split; [reflexivity|]. split; [exact LJ|]. split; [|intros i u Hi; apply zget_bounds in Hi; lia].
    intros m Hm. apply In_zget in Hm as (i & Hi). apply zget_bounds in Hi. lia.
  - destruct (zset_in_range J (n - 1) 1 ltac:(lia)) as (J' & EJ). exists J'. split; [exact EJ|]. pose proof (zset_zlen _ _ _ _ EJ) as LJ'. split; [lia|].
    assert (forall i u u', 0 <= i < n - 1 -> zget p i = Ok u -> zget p (i + 1) = Ok u' -> (tuple canon deg u = tuple canon deg u' -> zget J' i = Ok 0) /\ (tuple canon deg u <> tuple canon deg u' -> zget J' i = Ok 1)) as J2.
    { intros i u u' Hi Hu Hu'. rewrite (zset_get_ne _ _ _ _ _ EJ) by lia. apply J1; [lia|assumption..]. }
    assert (zget J' (n - 1) = Ok 1) as J3 by (eapply zset_get_eq; eassumption).
    assert (forall u u', {tuple canon deg u = tuple canon deg u'} + {tuple canon deg u <> tuple canon deg u'}) as dec by (intros; apply list_eq_dec, Z.eq_dec).
    split.
    + intros m Hm. apply In_zget in Hm as (i & Hi). pose proof (zget_bounds _ _ _ Hi). destruct (Z.eq_dec i (n - 1)) as [->|]; [right; congruence|].
      destruct (zget_in_range p i ltac:(lia)) as (u & Hu). destruct (zget_in_range p (i + 1) ltac:(lia)) as (u' & Hu'). destruct (J2 i u u' ltac:(lia) Hu Hu') as [K1 K2].
      destruct (dec u u') as [e|e]; [apply K1 in e; left; congruence|apply K2 in e; right; congruence].
    + intros i u Hu. pose proof (zget_bounds _ _ _ Hu). destruct (Z.eq_dec i (n - 1)) as [->|Hi]; [tauto|].
      destruct (zget_in_range p (i + 1) ltac:(lia)) as (u' & Hu'). destruct (J2 i u u' ltac:(lia) Hu Hu') as [K1 K2]. split.
      * intros H1. right. exists u'. split; [exact Hu'|]. intros H2. apply K1 in H2. congruence.
      * intros [H1|(v & Hv & H1)]; [lia|]. assert (v = u') as -> by congruence. auto.
Qed.

Lemma find_unique_deg_spec deg uv2v n : 2 <= deg <= 4 -> zlen uv2v = n * deg -> rows_distinct deg uv2v ->
  exists out m, find_unique_deg deg uv2v = Ok out /\ zlen out = m * deg /\
  (forall e row, row_is deg out e row -> exists u, row_is deg uv2v u row /\ forall u' row', row_is deg uv2v u' row' -> same_polygon row row' -> u' <= u) /\
  (forall u row, row_is deg uv2v u row -> exists e row', row_is deg out e row' /\ same_polygon row row') /\
  (forall e e' row row', row_is deg out e row -> row_is deg out e' row' -> same_polygon row row' -> e = e').
Proof.
  intros Hd Hl HD. destruct (canon_rows deg uv2v n Hd Hl HD) as (codes & canon & E1 & E2 & Lc & Hc).
  destruct (sort_by_keys_spec canon deg n ltac:(lia) Lc) as (p & E3 & Lp & Pp & Sp).
  assert (forall u, In u p -> 0 <= u < n) as Hpr by (intros u Hu; rewrite <- Lp; apply is_perm_in; assumption).
  destruct (jumps_spec deg canon n p ltac:(lia) Lc Lp Hpr) as (jumps & E4 & Lj & J01 & HJ).
  destruct (collect_marked_full jumps J01) as (e2s & E5 & S5 & I5).
  destruct (compound_maps_spec e2s p) as (e2u & E6 & L6 & G6).
  { intros b Hb. apply I5 in Hb. apply zget_bounds in Hb. lia. }
  assert (forall e u, zget e2u e = Ok u -> exists i, zget e2s e = Ok i /\ zget p i = Ok u) as Q.
  { intros e u He. pose proof (zget_bounds _ _ _ He) as Hb. destruct (zget_in_range e2s e ltac:(lia)) as (i & Hi). exists i. split; [exact Hi|]. rewrite <- (G6 e i Hi). exact He. }
  destruct (unmap_spec e2u uv2v deg) as (out & E7 & L7 & G7); [lia| |].
  { intros b Hb. apply In_zget in Hb as (e & He). destruct (Q e b He) as (i & _ & Hi). pose proof (Hpr b (zget_In _ _ _ Hi)). nia. }
  exists out, (zlen e2u). split; [unfold find_unique_deg; rewrite E1; cbn [bind]; rewrite E2; cbn [bind]; rewrite E3; cbn [bind]; rewrite E4; cbn [bind]; rewrite E5; cbn [bind]; rewrite E6; cbn [bind]; exact E7|].
  split; [exact L7|].
  (* same polygon iff same canonical row *)
  assert (forall u u', 0 <= u < n -> 0 <= u' < n -> (same_polygon (tuple uv2v deg u) (tuple uv2v deg u') <-> tuple canon deg u = tuple canon deg u')) as HP.
  { intros u u' Hu Hu'. destruct (Hc u Hu) as [C1 P1], (Hc u' Hu') as [C2 P2].
    assert (zlen (tuple uv2v deg u) = deg) as T1 by (apply tuple_length with n; (lia || assumption)). assert (zlen (tuple uv2v deg u') = deg) as T2 by (apply tuple_length with n; (lia || assumption)).
    assert (zlen (tuple canon deg u) = deg) as T3 by (apply tuple_length with n; (lia || assumption)). split; intros H.
    - apply canonical_unique; [lia|exact C1|exact C2|]. apply same_polygon_trans with (tuple uv2v deg u); [lia|apply same_polygon_sym; [lia|exact P1]|].
      apply same_polygon_trans with (tuple uv2v deg u'); [lia|exact H|exact P2].
    - apply same_polygon_trans with (tuple canon deg u); [lia|exact P1|]. rewrite H. apply same_polygon_sym; [lia|exact P2]. }
  (* the sorted order *)
  assert (forall i j u v, zget p i = Ok u -> zget p j = Ok v -> i < j -> stably_before canon deg u v) as HS by (intros i j u v Hu Hv Hij; exact (strongly_zget p i j u v Sp Hu Hv Hij)).
  assert (forall i, zget jumps i = Ok 1 -> forall j u v, zget p i = Ok u -> zget p j = Ok v -> tuple canon deg u = tuple canon deg v -> j <= i) as HL.
  { intros i Hi j u v Hu Hv Huv. apply Z.nlt_ge. intros Hij. apply (HJ i u Hu) in Hi as [->|(w & Hw & Hne)]; [apply zget_bounds in Hv; lia|].
    destruct (Z.eq_dec j (i + 1)) as [->|]; [congruence|].
    destruct (HS i (i + 1) u w Hu Hw ltac:(lia)) as [K1|[K1 _]]; [|congruence]. destruct (HS (i + 1) j w v Hw Hv ltac:(lia)) as [K2|[K2 _]].
    - apply (lex_lt_irrefl (tuple canon deg u)). rewrite Huv at 2. eapply lex_lt_trans; eassumption.
    - congruence. }
  assert (forall k, forall i u, zget p i = Ok u -> n - 1 - i = Z.of_nat k -> exists j v, zget p j = Ok v /\ zget jumps j = Ok 1 /\ tuple canon deg v = tuple canon deg u) as HM.
  { induction k as [|k IH]; intros i u Hu Hk.
    - exists i, u. split; [exact Hu|]. split; [apply (HJ i u Hu); left; lia|reflexivity].
    - destruct (zget_in_range p (i + 1) ltac:(apply zget_bounds in Hu; lia)) as (w & Hw).
      destruct (list_eq_dec Z.eq_dec (tuple canon deg u) (tuple canon deg w)) as [e|e].
      + destruct (IH (i + 1) w Hw ltac:(lia)) as (j & v & A & B & C). exists j, v. split; [exact A|]. split; [exact B|congruence].
      + exists i, u. split; [exact Hu|]. split; [|reflexivity]. apply (HJ i u Hu). right. eauto. }
  assert (forall e row, row_is deg out e row -> exists i u, zget e2s e = Ok i /\ zget p i = Ok u /\ zget jumps i = Ok 1 /\ 0 <= u < n /\ row = tuple uv2v deg u) as HR.
  { intros e row Hrow. pose proof (row_is_range deg out (zlen e2u) e row ltac:(lia) L7 Hrow) as He. destruct (zget_in_range e2u e He) as (u & Hu).
    destruct (Q e u Hu) as (i & Hi & Hpi). exists i, u. split; [exact Hi|]. split; [exact Hpi|]. split; [apply I5; eapply zget_In; eassumption|].
    pose proof (Hpr u (zget_In _ _ _ Hpi)) as Hur. split; [exact Hur|].
    rewrite (row_is_eq deg out (zlen e2u) e row ltac:(lia) L7 Hrow). apply list_eq_zget.
    - rewrite (tuple_length out (zlen e2u)), (tuple_length uv2v n) by (lia || assumption). reflexivity.
    - intros j Hj. rewrite (tuple_length out (zlen e2u)) in Hj by (lia || assumption). rewrite !tuple_get by lia. apply (G7 e u j Hu). lia. }
  split; [|split].
  - intros e row Hrow. destruct (HR e row Hrow) as (i & u & Hi & Hpi & Hj & Hu & ->). exists u. split; [apply row_is_tuple with n; (lia || assumption)|].
    intros u' row' Hrow' HSP. pose proof (row_is_range deg uv2v n u' row' ltac:(lia) Hl Hrow') as Hu'. rewrite (row_is_eq deg uv2v n u' row' ltac:(lia) Hl Hrow') in HSP.
    apply HP in HSP; [|assumption..]. assert (In u' p) as Hin by (apply is_perm_in; [exact Pp|lia]). apply In_zget in Hin as (i' & Hi').
    pose proof (HL i Hj i' u u' Hpi Hi' HSP) as Hle. destruct (Z.eq_dec i' i) as [->|]; [assert (u' = u) by congruence; lia|].
    destruct (HS i' i u' u Hi' Hpi ltac:(lia)) as [K|[_ K]]; [|lia]. rewrite HSP in K. apply lex_lt_irrefl in K. destruct K.
  - intros u row Hrow. pose proof (row_is_range deg uv2v n u row ltac:(lia) Hl Hrow) as Hu. rewrite (row_is_eq deg uv2v n u row ltac:(lia) Hl Hrow).
    assert (In u p) as Hin by (apply is_perm_in; [exact Pp|lia]). apply In_zget in Hin as (i & Hi). pose proof (zget_bounds _ _ _ Hi) as Hib.
    destruct (HM (Z.to_nat (n - 1 - i)) i u Hi ltac:(lia)) as (j & v & Hv & Hj & Huv). pose proof (Hpr v (zget_In _ _ _ Hv)) as Hvr.
    assert (In j e2s) as Hin by (apply I5; exact Hj). apply In_zget in Hin as (e & He). pose proof (zget_bounds _ _ _ He) as Heb.
    exists e, (tuple out deg e). assert (row_is deg out e (tuple out deg e)) as Ho by (apply row_is_tuple with (zlen e2u); (lia || assumption)). split; [exact Ho|].
    destruct (HR e _ Ho) as (i2 & u2 & A1 & A2 & _ & A4 & ->). assert (i2 = j) as -> by congruence. assert (u2 = v) as -> by congruence. apply HP; [assumption..|congruence].
  - intros e e' row row' H1 H2 HSP. destruct (HR e row H1) as (i & u & A1 & A2 & A3 & A4 & ->), (HR e' row' H2) as (i' & u' & B1 & B2 & B3 & B4 & ->).
    apply HP in HSP; [|assumption..]. pose proof (HL i A3 i' u u' A2 B2 HSP). pose proof (HL i' B3 i u' u B2 A2 ltac:(congruence)). assert (i = i') as <- by lia.
    destruct (Z.lt_trichotomy e e') as [K|[K|K]]; [|exact K|]; exfalso; [pose proof (strongly_zget e2s e e' i i S5 A1 B1 K)|pose proof (strongly_zget e2s e' e i i S5 B1 A1 K)]; lia.
Qed.

(** ** forming the uses *)
Lemma degree_pos f high low : 0 <= low < high -> high <= 3 -> 0 < element_degree f high low.
Proof.
  intros Hl Hh. assert (forallb (fun f => forallb (fun high => forallb (fun low => 0 <? element_degree f high low) (zrange high)) (zrange 4)) families = true) as H by (vm_compute; reflexivity).
  rewrite forallb_forall in H. specialize (H f (in_families f)). pose proof (sweep _ _ H high ltac:(lia)) as H1. cbv beta in H1. pose proof (sweep _ _ H1 low ltac:(lia)) as H2. cbv beta in H2. lia.
Qed.
Lemma nverts_eq f low : 1 <= low -> nverts f low = element_degree f low 0.
Proof. intros H. unfold nverts. destruct low; [lia|reflexivity|reflexivity]. Qed.
Lemma low_degree f low : 1 <= low <= 2 -> 2 <= element_degree f low 0 <= 4.
Proof. intros H. assert (low = 1 \/ low = 2) as [->| ->] by lia; destruct f; vm_compute; split; discriminate. Qed.

Lemma form_uses_spec hv2v f high low nh : 1 <= low < high -> high <= 3 -> zlen hv2v = nh * element_degree f high 0 ->
  exists uv2v, form_uses hv2v f high low = Ok uv2v /\ zlen uv2v = nh * element_degree f high low * element_degree f low 0 /\
  (forall h u, 0 <= h < nh -> 0 <= u < element_degree f high low ->
     is_side f high low hv2v h u (tuple uv2v (element_degree f low 0) (h * element_degree f high low + u))).
Proof.
  intros Hl Hh HL. set (nvh := element_degree f high 0) in *. set (nvl := element_degree f low 0). set (nl := element_degree f high low).
  assert (0 < nvh) as P1 by (apply degree_pos; lia). assert (0 < nvl) as P2 by (apply degree_pos; lia). assert (0 < nl) as P3 by (apply degree_pos; lia).
  pose proof (zlen_nonneg hv2v) as Hz. assert (0 <= nh) as Hn by nia.
  unfold form_uses. fold nvh nvl nl. unfold divide_no_remainder. rewrite HL. destruct (Z.eqb_spec nvh 0); [lia|]. cbn [negb check bind].
  rewrite Z.rem_mul by lia. cbn [Z.eqb check bind]. rewrite Z.quot_mul by lia.
  set (g := fun h u uv => zget hv2v (h * nvh + element_down_template f high low u uv)).
  assert (forall h u, 0 <= h < nh -> 0 <= u < nl -> exists r, tabulate nvl (g h u) = Ok r) as K1.
  { intros h u Hh' Hu. destruct (mapM_total (g h u) (zrange nvl)) as (r & E); [|eauto]. intros uv Huv. apply in_zrange in Huv. apply zget_in_range.
    pose proof (down_range f high low u uv ltac:(lia) Hh Hu ltac:(rewrite nverts_eq by lia; exact Huv)) as Hr. fold nvh in Hr. nia. }
  set (gh := fun h => uses <- tabulate nl (fun u => tabulate nvl (g h u)) ;; Ok (concat uses)).
  assert (forall h, 0 <= h < nh -> exists uses, tabulate nl (fun u => tabulate nvl (g h u)) = Ok uses /\ Forall (fun r => zlen r = nvl) uses) as K2.
  { intros h Hh'. destruct (mapM_total (fun u => tabulate nvl (g h u)) (zrange nl)) as (uses & E); [intros u Hu; apply in_zrange in Hu; apply K1; assumption|].
    exists uses. split; [exact E|]. eapply Forall_tabulate; [|exact E|]; [lia|]. intros u a Hu Ha. apply tabulate_ok in Ha; [tauto|lia]. }
  destruct (mapM_total gh (zrange nh)) as (rows & E).
  { intros h Hh'. apply in_zrange in Hh'. destruct (K2 h Hh') as (uses & E & _). unfold gh. rewrite E. cbn [bind]. eauto. }
  change (mapM gh (zrange nh)) with (tabulate nh gh) in E. match goal with |- context [tabulate nh ?F] => change F with gh end. rewrite E. cbn [bind]. exists (concat rows). split; [reflexivity|].
  assert (Forall (fun r => zlen r = nl * nvl) rows) as HF.
  { eapply Forall_tabulate; [exact Hn|exact E|]. intros h a Hh' Ha. destruct (K2 h Hh') as (uses & Eu & Fu). unfold gh in Ha. rewrite Eu in Ha. cbn [bind] in Ha.
    assert (a = concat uses) as -> by congruence. rewrite (zlen_concat nvl) by exact Fu. apply tabulate_ok in Eu as [Lu _]; [|lia]. rewrite Lu. reflexivity. }
  apply (tabulate_ok nh gh rows Hn) in E as [Lr E].
  split; [rewrite (zlen_concat (nl * nvl)) by exact HF; rewrite Lr; ring|].
  intros h u Hh' Hu. exists (tuple hv2v nvh h). fold nvh nl. split; [apply row_is_tuple with nh; (lia || assumption)|]. split; [exact Hu|].
  destruct (E h Hh') as (hr & Ehr & Ghr). destruct (K2 h Hh') as (uses & Eu & Fu). unfold gh in Ehr. rewrite Eu in Ehr. cbn [bind] in Ehr. assert (hr = concat uses) as -> by congruence.
  apply tabulate_ok in Eu as [Lu Eu]; [|lia]. destruct (Eu u Hu) as (r & Er & Gr). apply tabulate_ok in Er as [Lr' Er]; [|lia].
  assert (tuple (concat rows) nvl (h * nl + u) = r) as ->.
  { apply list_eq_zget.
    - rewrite (tuple_length (concat rows) (nh * nl)); [lia|lia|nia|rewrite (zlen_concat (nl * nvl)) by exact HF; rewrite Lr; ring].
    - intros j Hj. rewrite (tuple_length (concat rows) (nh * nl)) in Hj; [|lia|nia|rewrite (zlen_concat (nl * nvl)) by exact HF; rewrite Lr; ring].
      rewrite tuple_get by nia. replace ((h * nl + u) * nvl + j) with (h * (nl * nvl) + (u * nvl + j)) by ring.
      rewrite (zget_concat (nl * nvl) rows HF h _ _ Ghr) by nia. rewrite (zget_concat nvl uses Fu u _ _ Gr) by lia. reflexivity. }
  assert (side_verts f high low u = map (element_down_template f high low u) (zrange nvl)) as ->.
  { unfold side_verts. rewrite nverts_eq by lia. reflexivity. }
  assert (forall k, (k <= Z.to_nat nvl)%nat -> Forall2 (fun v x => zget (tuple hv2v nvh h) v = Ok x) (map (element_down_template f high low u) (firstn k (zrange nvl))) (firstn k r)) as FK.
  { induction k as [|k IH]; intros Hk; [constructor|].
    destruct (Er (Z.of_nat k) ltac:(lia)) as (x & Ex & Gx).
    assert (firstn (S k) (zrange nvl) = firstn k (zrange nvl) ++ [Z.of_nat k]) as ->.
    { pose proof (firstn_snoc (zrange nvl) (Z.of_nat k) (Z.of_nat k) ltac:(apply zget_zrange; lia)) as Hs. replace (Z.to_nat (Z.of_nat k + 1)) with (S k) in Hs by lia. rewrite Nat2Z.id in Hs. exact Hs. }
    assert (firstn (S k) r = firstn k r ++ [x]) as ->.
    { pose proof (firstn_snoc r (Z.of_nat k) x Gx) as Hs. replace (Z.to_nat (Z.of_nat k + 1)) with (S k) in Hs by lia. rewrite Nat2Z.id in Hs. exact Hs. }
    rewrite map_app. apply Forall2_app; [apply IH; lia|]. constructor; [|constructor]. unfold g in Ex.
    rewrite tuple_get; [exact Ex|lia|]. pose proof (down_range f high low u (Z.of_nat k) ltac:(lia) Hh Hu ltac:(rewrite nverts_eq by lia; fold nvl; lia)) as Hr. fold nvh in Hr. exact Hr. }
  specialize (FK (Z.to_nat nvl) ltac:(lia)). rewrite !firstn_all2 in FK; [exact FK|unfold zlen in Lr'; lia|rewrite zrange_length; lia].
Qed.

Lemma side_row_unique f high low hv2v h u r r' : is_side f high low hv2v h u r -> is_side f high low hv2v h u r' -> r = r'.
Proof.
  intros (a & A1 & _ & A2) (b & B1 & _ & B2). assert (a = b) as <- by (eapply row_is_unique; eassumption). clear A1 B1.
  revert r' B2. induction A2 as [|v x vs xs Hx _ IH]; intros r' B2; inversion B2; subst; [reflexivity|]. f_equal; [congruence|auto].
Qed.
Lemma side_row_NoDup f high low hv2v h u r : 0 <= low < high -> high <= 3 -> rows_distinct (element_degree f high 0) hv2v -> is_side f high low hv2v h u r -> NoDup r.
Proof.
  intros Hl Hh HD (a & A1 & Hu & A2). pose proof (HD h a A1) as ND. pose proof (side_nodup f high low u Hl Hh Hu) as NS.
  clear Hu A1. induction A2 as [|v x vs xs Hx A2 IH]; [constructor|]. apply NoDup_cons_iff in NS as [N1 N2]. constructor; [|apply IH, N2].
  intros Hin. clear IH N2. induction A2 as [|w y vs xs Hy A2 IH]; [destruct Hin|]. destruct Hin as [->|Hin].
  - apply N1. left. eapply NoDup_zget; eassumption.
  - apply IH; [|exact Hin]. intros H. apply N1. right. exact H.
Qed.

Lemma find_unique_spec hv2v f high low nh : 1 <= low < high -> high <= 3 -> zlen hv2v = nh * element_degree f high 0 ->
  rows_distinct (element_degree f high 0) hv2v ->
  exists out m, find_unique hv2v f high low = Ok out /\ zlen out = m * element_degree f low 0 /\
  (forall e row, row_is (element_degree f low 0) out e row -> exists h u, is_side f high low hv2v h u row /\
     forall h' u' row', is_side f high low hv2v h' u' row' -> same_polygon row row' -> h' < h \/ (h' = h /\ u' <= u)) /\
  (forall h u row, is_side f high low hv2v h u row -> exists e row', row_is (element_degree f low 0) out e row' /\ same_polygon row row') /\
  (forall e e' row row', row_is (element_degree f low 0) out e row -> row_is (element_degree f low 0) out e' row' -> same_polygon row row' -> e = e').
Proof.
  intros Hl Hh HL HD. assert (0 < element_degree f high 0) as P1 by (apply degree_pos; lia). assert (0 < element_degree f high low) as P3 by (apply degree_pos; lia).
  pose proof (low_degree f low ltac:(lia)) as Hd.
  destruct (form_uses_spec hv2v f high low nh Hl Hh HL) as (uv2v & E & LU & HS).
  set (nl := element_degree f high low) in *. set (nvl := element_degree f low 0) in *.
  assert (forall k row, row_is nvl uv2v k row -> is_side f high low hv2v (k / nl) (k mod nl) row) as F1.
  { intros k row Hk. pose proof (row_is_range nvl uv2v (nh * nl) k row ltac:(lia) LU Hk) as Hr. pose proof (Z.div_mod k nl ltac:(lia)) as Hdm. pose proof (Z.mod_pos_bound k nl ltac:(lia)) as Hm.
    rewrite (row_is_eq nvl uv2v (nh * nl) k row ltac:(lia) LU Hk). rewrite Hdm at 3. rewrite (Z.mul_comm nl). apply HS; [|exact Hm].
    split; [apply Z.div_pos; lia|apply Z.div_lt_upper_bound; [lia|]]. rewrite Z.mul_comm. lia. }
  assert (forall h u row, is_side f high low hv2v h u row -> 0 <= u < nl /\ row_is nvl uv2v (h * nl + u) row) as F2.
  { intros h u row Hs. destruct Hs as (a & A1 & A2 & A3). pose proof (row_is_range _ hv2v nh h a P1 HL A1) as Hhr. split; [exact A2|].
    assert (row = tuple uv2v nvl (h * nl + u)) as ->. { eapply side_row_unique; [exists a; eauto|apply HS; assumption]. }
    apply row_is_tuple with (nh * nl); [lia|exact LU|]. fold nl in A2. nia. }
  destruct (find_unique_deg_spec nvl uv2v (nh * nl) ltac:(lia) LU) as (out & m & Eo & Lo & H1 & H2 & H3).
  { intros k row Hk. eapply side_row_NoDup; [| |exact HD|apply F1, Hk]; lia. }
  exists out, m. split.
  { unfold find_unique. destruct (Z.gtb_spec high low); [|lia]. cbn [check bind]. destruct (Z.leb_spec low 2); [|lia]. cbn [check bind].
    rewrite HL, Z.rem_mul by lia. cbn [Z.eqb check bind]. rewrite E. cbn [bind]. exact Eo. }
  split; [exact Lo|]. split; [|split; [|exact H3]].
  - intros e row He. destruct (H1 e row He) as (k & Hk & Hmax). exists (k / nl), (k mod nl). split; [apply F1, Hk|].
    intros h' u' row' Hs HP. destruct (F2 h' u' row' Hs) as [Hu' Hrow']. pose proof (Hmax _ _ Hrow' HP) as Hle.
    pose proof (Z.div_mod k nl ltac:(lia)) as Hdm. pose proof (Z.mod_pos_bound k nl ltac:(lia)) as Hm. nia.
  - intros h u row Hs. destruct (F2 h u row Hs) as [_ Hrow]. exact (H2 _ _ Hrow).
Qed.

(** for edges and triangles, the same polygon is the same set of vertices *)
Lemma small_polygon_set (l m : list Z) : 2 <= zlen l <= 3 -> NoDup l -> NoDup m -> (same_polygon l m <-> zlen m = zlen l /\ same_set l m).
Proof.
  intros Hn N1 N2. split.
  - intros H. split; [apply same_polygon_zlen, H|]. intros x. destruct H as [(a & b & -> & ->)|(a & b & E & ->)].
    + rewrite !in_app_iff. tauto.
    + rewrite (in_rev l), E, !in_app_iff. tauto.
  - intros [Hl HS].
    assert (forall c, In c l -> In c m) as HS' by (intros c; apply HS). clear HS.
    assert (Permutation l m) as HP. { apply NoDup_Permutation_bis; [exact N1|unfold zlen in Hl; lia|exact HS']. }
    clear HS' Hl. remember (zlen l) as n eqn:E. symmetry in E.
    destruct (zlen_cases l n E ltac:(lia)) as [(a & b & -> & ->)|[(a & b & c & -> & ->)|(a & b & c & d & -> & ->)]]; [| |lia]; clear E.
    + apply Permutation_length_2_inv in HP as [->| ->]; left; [exists [], [a; b]|exists [a], [b]]; auto.
    + pose proof (Permutation_length HP) as HL. destruct m as [|x [|y [|z [|w m]]]]; try discriminate HL. clear HL.
      assert (In x [a; b; c] /\ In y [a; b; c] /\ In z [a; b; c]) as (Hx & Hy & Hz).
      { apply Permutation_sym in HP. split; [|split]; apply (Permutation_in _ HP); cbn; tauto. }
      clear HP N1. apply NoDup_cons_iff in N2 as [N2 N3]. apply NoDup_cons_iff in N3 as [N3 _]. cbn [In] in *.
      destruct Hx as [<-|[<-|[<-|[]]]], Hy as [<-|[<-|[<-|[]]]], Hz as [<-|[<-|[<-|[]]]]; try tauto.
      all: unfold same_polygon, forwards; cbn [rev app].
      all: first [ left; exists [], [a; b; c]; split; reflexivity | left; exists [a], [b; c]; split; reflexivity | left; exists [a; b], [c]; split; reflexivity
            | right; exists [], [c; b; a]; split; reflexivity | right; exists [c], [b; a]; split; reflexivity | right; exists [c; b], [a]; split; reflexivity ].
Qed.

Lemma rows_distinct_check deg l n : 0 < deg -> zlen l = n * deg -> forallb (fun e => nodupb (tuple l deg e)) (zrange n) = true -> rows_distinct deg l.
Proof.
  intros Hd Hl H e row Hr. pose proof (row_is_range deg l n e row Hd Hl Hr) as He. rewrite (row_is_eq deg l n e row Hd Hl Hr).
  apply nodupb_spec. exact (sweep _ _ H e He).
Qed.
