From Verif Require Import Prelude M_Array P_Array P_Graph M_Align S_Align.
Local Open Scope Z_scope.

Lemma flip_cases code : code_is_flipped code = true \/ code_is_flipped code = false.
Proof. destruct (code_is_flipped code); auto. Qed.
Lemma rot_range code : 0 <= code_rotation code < 4.
Proof. unfold code_rotation. change 3 with (Z.ones 2). rewrite Z.land_ones by lia. change (2 ^ 2) with 4. apply Z.mod_pos_bound. lia. Qed.

Definition in16 := zrange 16.
Lemma code_fields b r w : 0 <= r < 4 -> 0 <= w < 16 ->
  code_is_flipped (make_code b r w) = b /\ code_rotation (make_code b r w) = r /\ code_which_down (make_code b r w) = w /\ -128 <= make_code b r w <= 127.
Proof.
  intros Hr Hw.
  assert (forallb (fun b => forallb (fun r => forallb (fun w => let c := make_code b r w in Bool.eqb (code_is_flipped c) b && (code_rotation c =? r) && (code_which_down c =? w) && (-128 <=? c) && (c <=? 127)) (zrange 16)) (zrange 4)) [true; false] = true) as H by (vm_compute; reflexivity).
  rewrite forallb_forall in H. specialize (H b ltac:(destruct b; cbn; tauto)). rewrite forallb_forall in H. specialize (H r ltac:(apply in_zrange; lia)).
  rewrite forallb_forall in H. specialize (H w ltac:(apply in_zrange; lia)). cbv beta zeta in H. rewrite !andb_true_iff in H.
  destruct H as ((((H1 & H2) & H3) & H4) & H5). apply Bool.eqb_prop in H1. split; [exact H1|lia].
Qed.
Lemma code_fields_inv c : -128 <= c <= 127 -> 0 <= c -> make_code (code_is_flipped c) (code_rotation c) (code_which_down c) = c.
Proof.
  intros H1 H2. assert (forallb (fun c => make_code (code_is_flipped c) (code_rotation c) (code_which_down c) =? c) (zrange 128) = true) as H by (vm_compute; reflexivity).
  rewrite forallb_forall in H. specialize (H c ltac:(apply in_zrange; lia)). lia.
Qed.
Lemma code_wraps : code_which_down (make_code false 0 16) = -16.
Proof. vm_compute. reflexivity. Qed.

Lemma zlen_cases {A} (l : list A) n : zlen l = n -> 2 <= n <= 4 ->
  (exists a b, l = [a; b] /\ n = 2) \/ (exists a b c, l = [a; b; c] /\ n = 3) \/ (exists a b c d, l = [a; b; c; d] /\ n = 4).
Proof.
  unfold zlen. intros H Hn. destruct l as [|a [|b [|c [|d [|e l]]]]]; cbn [length] in H; try lia.
  - left. eauto.
  - right; left. exists a, b, c. split; [reflexivity|lia].
  - right; right. exists a, b, c, d. split; [reflexivity|lia].
Qed.
Ltac polygon l H :=
  let E := fresh in destruct (zlen_cases l _ H ltac:(lia)) as [(? & ? & -> & ->)|[(? & ? & ? & -> & ->)|(? & ? & ? & ? & -> & ->)]].
Ltac rots r H := let K := fresh in
  assert (r = 0 \/ r = 1 \/ r = 2 \/ r = 3) as K by lia; destruct K as [->|[->|[->| ->]]].

(** the action of a code on a row, as a function of its flip and rotation *)
Definition act {A} (n : Z) (b : bool) (r : Z) (l : list A) : res (list A) :=
  out <- rotate_adj n r l ;; if b then flip_adj n out else Ok out.
Lemma align_act {A} n code (l : list A) : align_adj n code l = act n (code_is_flipped code) (code_rotation code) l.
Proof. reflexivity. Qed.

Definition vert (n i : Z) (b : bool) (r : Z) : Z := if b then flip_vert_index n (rotate_index n i r) else rotate_index n i r.
Definition edge (n i : Z) (b : bool) (r : Z) : Z := if b then flip_edge_index n (rotate_index n i r) else rotate_index n i r.

Lemma align_spec {A} n code (l : list A) : 2 <= n <= 4 -> zlen l = n ->
  exists l', align_adj n code l = Ok l' /\ zlen l' = n /\ forall j, 0 <= j < n -> zget l' (align_vert_index n j code) = zget l j.
Proof.
  intros Hn Hl. rewrite align_act. change (align_vert_index n) with (fun j code => vert n j (code_is_flipped code) (code_rotation code)). cbv beta.
  pose proof (rot_range code) as Hr. generalize dependent (code_rotation code). intros r Hr. destruct (code_is_flipped code).
  all: polygon l Hl; rots r Hr; eexists; (split; [vm_compute; reflexivity|]); (split; [reflexivity|]); intros j Hj.
  all: assert (j = 0 \/ j = 1 \/ j = 2 \/ j = 3) as K by lia; destruct K as [->|[->|[->| ->]]]; try lia; reflexivity.
Qed.

Lemma inv_fields n code : 2 <= n <= 4 -> code_rotation code < n ->
  code_is_flipped (invert_alignment n code) = code_is_flipped code /\
  code_rotation (invert_alignment n code) = if code_is_flipped code then code_rotation code else (n - code_rotation code) mod n.
Proof.
  intros Hn Hr. pose proof (rot_range code). unfold invert_alignment. destruct (code_is_flipped code) eqn:E; [auto|].
  unfold invert_rotation. rewrite Z.rem_mod_nonneg by lia.
  destruct (code_fields false ((n - code_rotation code) mod n) 0) as (H1 & H2 & _); [|lia|auto].
  pose proof (Z.mod_pos_bound (n - code_rotation code) n ltac:(lia)). lia.
Qed.

Lemma inverse_spec {A} n code (l l' : list A) : 2 <= n <= 4 -> zlen l = n -> code_rotation code < n ->
  align_adj n code l = Ok l' -> align_adj n (invert_alignment n code) l' = Ok l.
Proof.
  intros Hn Hl Hr E. rewrite align_act in *. destruct (inv_fields n code Hn Hr) as [H1 H2]. rewrite H1, H2. clear H1 H2.
  pose proof (rot_range code) as Hr'. generalize dependent (code_rotation code). intros r Hr E Hr'. destruct (code_is_flipped code).
  all: polygon l Hl; rots r Hr'; try lia; vm_compute in E; injection E as <-; vm_compute; reflexivity.
Qed.

Lemma comp_fields n c1 c2 : 2 <= n <= 4 -> code_rotation c1 < n -> code_rotation c2 < n ->
  let of := vert n (vert n 0 (code_is_flipped c1) (code_rotation c1)) (code_is_flipped c2) (code_rotation c2) in
  let b := xorb (code_is_flipped c1) (code_is_flipped c2) in
  code_is_flipped (compound_alignments_n n c1 c2) = b /\ code_rotation (compound_alignments_n n c1 c2) = if b then (n - of) mod n else of.
Proof.
  intros Hn H1 H2. pose proof (rot_range c1) as R1. pose proof (rot_range c2) as R2. cbv zeta. unfold compound_alignments_n.
  change (align_vert_index n (align_vert_index n 0 c1) c2) with (vert n (vert n 0 (code_is_flipped c1) (code_rotation c1)) (code_is_flipped c2) (code_rotation c2)).
  generalize dependent (code_rotation c1). intros r1 H1 R1. generalize dependent (code_rotation c2). intros r2 H2 R2.
  destruct (code_is_flipped c1), (code_is_flipped c2);
  assert (n = 2 \/ n = 3 \/ n = 4) as K by lia; destruct K as [->|[->| ->]]; rots r1 R1; try lia; rots r2 R2; try lia; vm_compute; auto.
Qed.

Lemma compound_spec {A} n c1 c2 (l l1 l2 : list A) : 2 <= n <= 4 -> zlen l = n -> code_rotation c1 < n -> code_rotation c2 < n ->
  align_adj n c1 l = Ok l1 -> align_adj n c2 l1 = Ok l2 -> align_adj n (compound_alignments_n n c1 c2) l = Ok l2.
Proof.
  intros Hn Hl H1 H2 E1 E2. rewrite align_act in *. destruct (comp_fields n c1 c2 Hn H1 H2) as [K1 K2]. rewrite K1, K2. clear K1 K2.
  pose proof (rot_range c1) as R1. pose proof (rot_range c2) as R2.
  generalize dependent (code_rotation c1). intros r1 H1 E1 R1. generalize dependent (code_rotation c2). intros r2 H2 E2 R2.
  destruct (code_is_flipped c1), (code_is_flipped c2);
  polygon l Hl; rots r1 R1; try lia; vm_compute in E1; injection E1 as <-; rots r2 R2; try lia; vm_compute in E2; injection E2 as <-; vm_compute; reflexivity.
Qed.

Lemma edge_spec {A} n code (l l' : list A) j v w : 3 <= n <= 4 -> zlen l = n -> 0 <= j < n ->
  align_adj n code l = Ok l' -> edge_of l j v w -> edge_of l' (align_edge_index n j code) v w.
Proof.
  intros Hn Hl Hj E He. rewrite align_act in E. change (align_edge_index n j code) with (edge n j (code_is_flipped code) (code_rotation code)).
  pose proof (rot_range code) as Hr. generalize dependent (code_rotation code). intros r E Hr. destruct (code_is_flipped code).
  all: polygon l Hl; try lia; rots r Hr; vm_compute in E; injection E as <-.
  all: assert (j = 0 \/ j = 1 \/ j = 2 \/ j = 3) as K by lia; destruct K as [->|[->|[->| ->]]]; try lia.
  all: vm_compute in He; vm_compute; tauto.
Qed.

Lemma polygon_spec {A} n code (l l' : list A) : 2 <= n <= 4 -> zlen l = n -> align_adj n code l = Ok l' -> same_polygon l l'.
Proof.
  intros Hn Hl E. rewrite align_act in E.
  pose proof (rot_range code) as Hr. generalize dependent (code_rotation code). intros r E Hr. destruct (code_is_flipped code).
  all: polygon l Hl; try lia; rots r Hr; vm_compute in E; injection E as <-.
  all: unfold same_polygon, forwards; cbn [rev app].
  all: match goal with
   | |- (exists a b, [?x; ?y] = _ /\ _) \/ _ =>
      first [ left; exists [], [x; y]; split; reflexivity | left; exists [x], [y]; split; reflexivity ]
   | |- (exists a b, [?x; ?y; ?z] = _ /\ _) \/ _ =>
      first [ left; exists [], [x; y; z]; split; reflexivity | left; exists [x], [y; z]; split; reflexivity | left; exists [x; y], [z]; split; reflexivity
            | right; exists [], [z; y; x]; split; reflexivity | right; exists [z], [y; x]; split; reflexivity | right; exists [z; y], [x]; split; reflexivity ]
   | |- (exists a b, [?x; ?y; ?z; ?t] = _ /\ _) \/ _ =>
      first [ left; exists [], [x; y; z; t]; split; reflexivity | left; exists [x], [y; z; t]; split; reflexivity | left; exists [x; y], [z; t]; split; reflexivity | left; exists [x; y; z], [t]; split; reflexivity
            | right; exists [], [t; z; y; x]; split; reflexivity | right; exists [t], [z; y; x]; split; reflexivity | right; exists [t; z], [y; x]; split; reflexivity | right; exists [t; z; y], [x]; split; reflexivity ]
   end.
Qed.

(** every reading of a polygon is reached by one code, and only one if the corners differ *)
Lemma polygon_reached {A} n (l l' : list A) : 2 <= n <= 4 -> zlen l = n -> same_polygon l l' ->
  exists b r, 0 <= r < n /\ align_adj n (make_code b r 0) l = Ok l'.
Proof.
  intros Hn Hl HS.
  assert (exists b r, 0 <= r < n /\ act n b r l = Ok l') as (b & r & Hr & E).
  { polygon l Hl; try lia; destruct HS as [(a & c & E1 & E2)|(a & c & E1 & E2)]; cbn [rev app] in E1; subst l';
    destruct a as [|? [|? [|? [|? [|? a]]]]]; cbn [app] in E1; try discriminate E1; first [subst c | injection E1; intros; subst; try discriminate].
    all: cbn [app].
    all: first [ exists false, 0; split; [lia|vm_compute; reflexivity] | exists false, 1; split; [lia|vm_compute; reflexivity]
      | exists false, 2; split; [lia|vm_compute; reflexivity] | exists false, 3; split; [lia|vm_compute; reflexivity]
      | exists true, 0; split; [lia|vm_compute; reflexivity] | exists true, 1; split; [lia|vm_compute; reflexivity]
      | exists true, 2; split; [lia|vm_compute; reflexivity] | exists true, 3; split; [lia|vm_compute; reflexivity] ]. }
  exists b, r. split; [exact Hr|]. rewrite align_act. destruct (code_fields b r 0 ltac:(lia) ltac:(lia)) as (-> & -> & _). exact E.
Qed.

Lemma faithful {A} n c1 c2 (l l' : list A) : 3 <= n <= 4 -> zlen l = n -> NoDup l -> code_rotation c1 < n -> code_rotation c2 < n ->
  align_adj n c1 l = Ok l' -> align_adj n c2 l = Ok l' -> code_is_flipped c1 = code_is_flipped c2 /\ code_rotation c1 = code_rotation c2.
Proof.
  intros Hn Hl ND H1 H2 E1 E2. rewrite align_act in *. pose proof (rot_range c1) as R1. pose proof (rot_range c2) as R2.
  generalize dependent (code_rotation c1). intros r1 H1 E1 R1. generalize dependent (code_rotation c2). intros r2 H2 E2 R2.
  polygon l Hl; try lia.
  all: repeat match goal with H : NoDup (_ :: _) |- _ => apply NoDup_cons_iff in H as [? ?] end; cbn [In] in *.
  all: destruct (code_is_flipped c1), (code_is_flipped c2); rots r1 R1; try lia; vm_compute in E1; injection E1 as <-; rots r2 R2; try lia; auto; vm_compute in E2;
    exfalso; injection E2; intros; subst; tauto.
Qed.

(** ** arrays of rows *)
Lemma get_row_ok {A} deg (l : list A) e : 0 <= deg -> 0 <= e -> e * deg + deg <= zlen l -> exists row, get_row deg l e = Ok row /\ row_is deg l e row.
Proof.
  intros Hd He Hl. destruct (mapM_total (fun j => zget l (e * deg + j)) (zrange deg)) as (row & E).
  { intros j Hj. apply in_zrange in Hj. apply zget_in_range. nia. }
  exists row. split; [exact E|]. apply (tabulate_ok deg (fun j => zget l (e * deg + j)) row Hd) in E. exact E.
Qed.
Lemma get_row_is {A} deg (l : list A) e row : 0 <= deg -> (get_row deg l e = Ok row <-> row_is deg l e row).
Proof. intros Hd. apply (tabulate_ok deg (fun j => zget l (e * deg + j)) row Hd). Qed.

Lemma zlen_concat {A} deg (rows : list (list A)) : Forall (fun r => zlen r = deg) rows -> zlen (concat rows) = zlen rows * deg.
Proof. induction 1 as [|r rows Hr _ IH]; [reflexivity|]. cbn [concat]. rewrite zlen_app, IH, Hr, zlen_cons. lia. Qed.
Lemma zget_concat {A} deg (rows : list (list A)) : Forall (fun r => zlen r = deg) rows ->
  forall e row j, zget rows e = Ok row -> 0 <= j < deg -> zget (concat rows) (e * deg + j) = zget row j.
Proof.
  induction 1 as [|r rows Hr HF IH]; intros e row j He Hj.
  - apply zget_bounds in He. change (zlen (@nil (list A))) with 0 in He. lia.
  - pose proof (zget_bounds _ _ _ He) as Hb. rewrite zlen_cons in Hb. cbn [concat]. destruct (Z.eq_dec e 0) as [->|Hne].
    + assert (r = row) as <- by (unfold zget in He; cbn in He; congruence). rewrite zget_app_l by lia. reflexivity.
    + rewrite zget_app_r by nia. replace (e * deg + j - zlen r) with ((e - 1) * deg + j) by nia. apply IH; [|exact Hj].
      apply zget_ok in He as [_ He]. apply zget_ok. split; [lia|]. replace (Z.to_nat e) with (S (Z.to_nat (e - 1))) in He by lia. exact He.
Qed.
Lemma row_is_unique {A} deg (l : list A) e r r' : row_is deg l e r -> row_is deg l e r' -> r = r'.
Proof.
  intros [H1 H2] [H3 H4]. apply list_eq_zget; [congruence|]. intros i Hi. destruct (H2 i ltac:(lia)) as (x & E1 & E2), (H4 i ltac:(lia)) as (y & E3 & E4). congruence.
Qed.
Lemma row_of_concat {A} deg (rows : list (list A)) e row : Forall (fun r => zlen r = deg) rows -> zget rows e = Ok row -> row_is deg (concat rows) e row.
Proof.
  intros HF He. assert (zlen row = deg) as Hl. { rewrite Forall_forall in HF. apply HF. eapply zget_In, He. }
  split; [exact Hl|]. intros j Hj. rewrite (zget_concat deg rows HF e row j He Hj). destruct (zget_in_range row j ltac:(lia)) as (x & Hx). eauto.
Qed.

Lemma Forall_tabulate {A} n (f : Z -> res A) r (P : A -> Prop) : 0 <= n -> tabulate n f = Ok r -> (forall i a, 0 <= i < n -> f i = Ok a -> P a) -> Forall P r.
Proof.
  intros Hn E H. apply Forall_forall. intros a Ha. apply In_nth_error in Ha as (k & Hk). apply zget_nat in Hk. pose proof (zget_bounds _ _ _ Hk).
  apply (tabulate_ok n f r Hn) in E as [El E]. destruct (E (Z.of_nat k) ltac:(lia)) as (a' & Hf & Hg). assert (a' = a) as -> by congruence. eapply H; [|exact Hf]. lia.
Qed.

Lemma align_ev2v_spec {A} deg (ev2v : list A) codes : 2 <= deg <= 4 -> zlen ev2v = zlen codes * deg ->
  exists out, align_ev2v deg ev2v codes = Ok out /\ zlen out = zlen ev2v /\
  forall e code row, zget codes e = Ok code -> row_is deg ev2v e row -> exists row', align_adj deg code row = Ok row' /\ row_is deg out e row'.
Proof.
  intros Hd Hl. assert (align_ev2v deg ev2v codes = align_ev2v_deg deg ev2v codes) as -> .
  { unfold align_ev2v. assert (deg = 2 \/ deg = 3 \/ deg = 4) as K by lia. destruct K as [->|[->| ->]]; reflexivity. }
  unfold align_ev2v_deg. rewrite (proj2 (Z.eqb_eq _ _) Hl). cbn [check bind]. pose proof (zlen_nonneg codes) as Hc.
  set (f := fun e => code <- zget codes e ;; row <- get_row deg ev2v e ;; align_adj deg code row).
  assert (forall e, 0 <= e < zlen codes -> exists code row row', zget codes e = Ok code /\ get_row deg ev2v e = Ok row /\ align_adj deg code row = Ok row' /\ zlen row' = deg) as K.
  { intros e He. destruct (zget_in_range codes e He) as (code & E1). destruct (get_row_ok deg ev2v e ltac:(lia) ltac:(lia) ltac:(nia)) as (row & E2 & Hlr & _).
    destruct (align_spec deg code row Hd Hlr) as (row' & E3 & Hl' & _). eauto 10. }
  destruct (mapM_total f (zrange (zlen codes))) as (rows & E).
  { intros e He. apply in_zrange in He. destruct (K e He) as (code & row & row' & E1 & E2 & E3 & _). exists row'. unfold f. rewrite E1. cbn [bind]. rewrite E2. exact E3. }
  change (mapM f (zrange (zlen codes))) with (tabulate (zlen codes) f) in E. rewrite E. cbn [bind]. exists (concat rows). split; [reflexivity|].
  assert (Forall (fun r => zlen r = deg) rows) as HF.
  { eapply Forall_tabulate; [exact Hc|exact E|]. intros e a He Ha. destruct (K e He) as (code & row & row' & E1 & E2 & E3 & E4). unfold f in Ha. rewrite E1 in Ha. cbn [bind] in Ha. rewrite E2 in Ha. cbn [bind] in Ha. congruence. }
  apply (tabulate_ok (zlen codes) f rows Hc) in E as [Er E].
  split; [rewrite (zlen_concat deg) by exact HF; lia|].
  intros e code row E1 Hrow. pose proof (zget_bounds _ _ _ E1) as He. destruct (E e He) as (row' & Hf & Hg).
  unfold f in Hf. rewrite E1 in Hf. cbn [bind] in Hf. apply get_row_is in Hrow; [|lia]. rewrite Hrow in Hf. cbn [bind] in Hf.
  exists row'. split; [exact Hf|]. apply row_of_concat; assumption.
Qed.
