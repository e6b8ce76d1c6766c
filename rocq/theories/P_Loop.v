(** find_loop orders the vertices around an edge. *)
From Verif Require Import Prelude M_Align M_Template M_SwapTables M_Swap3d S_Swap3d P_Across P_Graph.
From Coq Require Import Permutation.
Local Open Scope Z_scope.

(** ** cycles *)
Lemma combine_app' {A B} (a a' : list A) (b b' : list B) : length a = length b -> combine (a ++ a') (b ++ b') = combine a b ++ combine a' b'.
Proof. revert b. induction a as [|x a IH]; intros [|y b] H; cbn in *; try discriminate; [reflexivity|]. f_equal. apply IH. lia. Qed.
Lemma map_fst_combine {A B} (a : list A) : forall b : list B, length a = length b -> map fst (combine a b) = a.
Proof. induction a as [|x a IH]; intros [|y b] H; cbn in *; try discriminate; [reflexivity|]. f_equal. apply IH. lia. Qed.
Lemma map_snd_combine {A B} (a : list A) : forall b : list B, length a = length b -> map snd (combine a b) = b.
Proof. induction a as [|x a IH]; intros [|y b] H; cbn in *; try discriminate; [reflexivity|]. f_equal. apply IH. lia. Qed.
Lemma cycle_fst l : map fst (cycle l) = l.
Proof. destruct l as [|a t]; [reflexivity|]. apply map_fst_combine. rewrite app_length. cbn. lia. Qed.
Lemma cycle_length l : length (cycle l) = length l.
Proof. rewrite <- (map_length fst), cycle_fst. reflexivity. Qed.
Lemma cycle_turn a t : Permutation (cycle (a :: t)) (cycle (t ++ [a])).
Proof.
  destruct t as [|b u]; [reflexivity|].
  assert (cycle ((b :: u) ++ [a]) = combine (b :: u) (u ++ [a]) ++ [(a, b)]) as ->.
  { unfold cycle. cbn [app]. change (b :: u ++ [a]) with ((b :: u) ++ [a]). rewrite (combine_app' (b :: u) [a] (u ++ [a]) [b]) by (rewrite app_length; cbn; lia). reflexivity. }
  change (cycle (a :: b :: u)) with ((a, b) :: combine (b :: u) (u ++ [a])). apply Permutation_cons_append.
Qed.
Lemma cycle_rotate P : forall S, Permutation (cycle (P ++ S)) (cycle (S ++ P)).
Proof.
  induction P as [|a P IH]; intros S; [rewrite app_nil_r; reflexivity|]. cbn [app]. rewrite cycle_turn. rewrite <- app_assoc. rewrite IH. rewrite <- app_assoc. reflexivity.
Qed.
Lemma NoDup_fst_inj (l : list (Z * Z)) p q : NoDup (map fst l) -> In p l -> In q l -> fst p = fst q -> p = q.
Proof.
  induction l as [|r l IH]; intros H Hp Hq E; [contradiction|]. inversion H as [|? ? H1 H2]; subst. destruct Hp as [->|Hp], Hq as [->|Hq]; auto.
  - exfalso. apply H1. rewrite E. apply in_map, Hq.
  - exfalso. apply H1. rewrite <- E. apply in_map, Hp.
Qed.

(** ** one step of the ordering, on lists *)
Lemma find_start_mid (n : Z) A : forall B1 B2 b v, fst b = v -> (forall c, In c B1 -> fst c <> v) -> n = zlen (A ++ B1 ++ b :: B2) ->
  find_start (A ++ B1 ++ b :: B2) v (zfromto (zlen A) n) = Ok (zlen (A ++ B1)).
Proof.
  intros B1. revert A. induction B1 as [|c B1 IH]; intros A B2 b v Hb Hc ->.
  - rewrite app_nil_r. cbn [app]. unfold zfromto. pose proof (zlen_nonneg A). pose proof (zlen_nonneg B2). rewrite zlen_app, zlen_cons.
    destruct (Z.to_nat (zlen A + (zlen B2 + 1) - zlen A)) as [|k] eqn:E; [lia|]. unfold zrange. rewrite E. cbn [seq map find_start]. rewrite Z.add_0_r.
    rewrite zget_app_r by lia. rewrite Z.sub_diag. cbn [zget]. change (zget (b :: B2) 0) with (@Ok (Z * Z) b). cbn [bind]. rewrite Hb, Z.eqb_refl. reflexivity.
  - specialize (IH (A ++ [c]) B2 b v Hb (fun d Hd => Hc d (or_intror Hd)) ltac:(rewrite <- app_assoc; reflexivity)). rewrite <- !app_assoc in IH. cbn [app] in IH.
    assert (zfromto (zlen A) (zlen (A ++ (c :: B1) ++ b :: B2)) = zlen A :: zfromto (zlen (A ++ [c])) (zlen (A ++ (c :: B1) ++ b :: B2))) as ->.
    { unfold zfromto. rewrite (zlen_app A [c]). change (zlen [c]) with 1. set (m := zlen _ - (zlen A + 1)). assert (0 <= m). { subst m. rewrite !zlen_app, !zlen_cons. pose proof (zlen_nonneg B1). pose proof (zlen_nonneg B2). lia. }
      replace (zlen (A ++ (c :: B1) ++ b :: B2) - zlen A) with (m + 1) by (subst m; lia). clearbody m. unfold zrange. replace (Z.to_nat (m + 1)) with (S (Z.to_nat m)) by lia. cbn [seq map]. f_equal; [lia|].
      rewrite <- seq_shift, !map_map. apply map_ext. intros k. lia. }
    cbn [find_start]. cbn [app]. rewrite zget_app_r by lia. rewrite Z.sub_diag. change (zget (c :: B1 ++ b :: B2) 0) with (@Ok (Z * Z) c). cbn [bind].
    destruct (Z.eqb_spec (fst c) v) as [E|_]; [exfalso; exact (Hc c (or_introl eq_refl) E)|]. exact IH.
Qed.

Lemma order_step_found n A a B1 B2 b : fst b = snd a -> (forall c, In c B1 -> fst c <> snd a) -> n = zlen ((A ++ [a]) ++ B1 ++ b :: B2) ->
  exists B, order_step n ((A ++ [a]) ++ B1 ++ b :: B2) (zlen A) = Ok ((A ++ [a]) ++ b :: B) /\ Permutation (b :: B) (B1 ++ b :: B2).
Proof.
  intros Hb Hc Hn. unfold order_step. assert (zget ((A ++ [a]) ++ B1 ++ b :: B2) (zlen A) = Ok a) as ->.
  { rewrite <- app_assoc. rewrite zget_app_r by lia. rewrite Z.sub_diag. reflexivity. }
  cbn [bind]. replace (zlen A + 1) with (zlen (A ++ [a])) by (rewrite zlen_app; reflexivity). set (A' := A ++ [a]) in *. clearbody A'. clear A.
  rewrite (find_start_mid n A' B1 B2 b (snd a) Hb Hc Hn). cbn [bind].
  assert (zget (A' ++ B1 ++ b :: B2) (zlen (A' ++ B1)) = Ok b) as ->. { rewrite app_assoc, zget_app_r by lia. rewrite Z.sub_diag. reflexivity. }
  destruct B1 as [|c B1].
  - rewrite app_nil_r. cbn [app]. rewrite zget_app_r by lia. rewrite Z.sub_diag. change (zget (b :: B2) 0) with (@Ok (Z * Z) b). cbn [bind]. rewrite zset_mid. cbn [bind]. rewrite zset_mid. eexists. split; [reflexivity|]. reflexivity.
  - cbn [app]. rewrite zget_app_r by lia. rewrite Z.sub_diag. change (zget (c :: B1 ++ b :: B2) 0) with (@Ok (Z * Z) c). cbn [bind]. rewrite zset_mid. cbn [bind].
    replace (A' ++ b :: B1 ++ b :: B2) with ((A' ++ b :: B1) ++ b :: B2) by (rewrite <- app_assoc; reflexivity).
    replace (zlen (A' ++ c :: B1)) with (zlen (A' ++ b :: B1)) by (rewrite !zlen_app, !zlen_cons; reflexivity). rewrite zset_mid.
    exists (B1 ++ c :: B2). split; [rewrite <- app_assoc; reflexivity|]. rewrite (Permutation_app_comm (c :: B1) (b :: B2)). cbn [app]. constructor. rewrite Permutation_app_comm. cbn. 
    change (c :: B1) with ([c] ++ B1). rewrite app_assoc. rewrite (Permutation_app_comm B2 [c]). cbn. reflexivity.
Qed.

(** the first entry of a list with a given start *)
Lemma first_start (B : list (Z * Z)) v : (exists b, In b B /\ fst b = v) -> exists B1 b B2, B = B1 ++ b :: B2 /\ fst b = v /\ forall c, In c B1 -> fst c <> v.
Proof.
  induction B as [|c B IH]; intros (b & Hb & E); [contradiction|]. destruct (Z.eq_dec (fst c) v) as [Ec|Ec].
  - exists [], c, B. split; [reflexivity|]. split; [exact Ec|]. intros ? [].
  - destruct Hb as [->|Hb]; [contradiction|]. destruct IH as (B1 & b' & B2 & -> & Eb & H); [eauto|]. exists (c :: B1), b', B2. split; [reflexivity|]. split; [exact Eb|]. intros d [<-|Hd]; auto.
Qed.

(** consecutive entries of a cycle meet *)
Lemma cycle_next l P a b S : cycle l = P ++ a :: b :: S -> snd a = fst b.
Proof.
  destruct l as [|x t]; [intros E; destruct P; discriminate|]. unfold cycle. intros E.
  assert (map snd (P ++ a :: b :: S) = t ++ [x]) as E2. { rewrite <- E. apply map_snd_combine. rewrite app_length. cbn. lia. }
  assert (map fst (P ++ a :: b :: S) = x :: t) as E1. { rewrite <- E. apply map_fst_combine. rewrite app_length. cbn. lia. }
  rewrite map_app in E1, E2. cbn [map] in E1, E2. 
  assert (nth_error (t ++ [x]) (length P) = Some (snd a)) as N2. { rewrite <- E2. rewrite nth_error_app2 by (rewrite map_length; lia). rewrite map_length, Nat.sub_diag. reflexivity. }
  assert (nth_error (x :: t) (Datatypes.S (length P)) = Some (fst b)) as N1. { rewrite <- E1. rewrite nth_error_app2 by (rewrite map_length; lia). rewrite map_length. replace (Datatypes.S (length P) - length P)%nat with 1%nat by lia. reflexivity. }
  cbn [nth_error] in N1. rewrite nth_error_app1 in N2 by (apply nth_error_Some; congruence). congruence.
Qed.

(** the whole ordering *)
Lemma order_all n l tmp : 1 <= n -> n = zlen l -> NoDup l -> Permutation tmp (cycle l) -> (exists a r r', tmp = a :: r /\ cycle l = a :: r') ->
  foldM (order_step n) (zrange (n - 1)) tmp = Ok (cycle l).
Proof.
  intros Hn En Hl Hp (a0 & r & r' & Et & Ec).
  assert (forall k, (k < length l)%nat -> exists B, foldM (order_step n) (zrange (Z.of_nat k)) tmp = Ok (firstn (S k) (cycle l) ++ B) /\ Permutation (firstn (S k) (cycle l) ++ B) (cycle l)) as K.
  { induction k as [|k IH]; intros Hk.
    - exists r. rewrite Ec. cbn [firstn app]. change (zrange (Z.of_nat 0)) with (@nil Z). cbn [foldM]. rewrite <- Et, <- Ec. auto.
    - destruct IH as (B & EB & PB); [lia|]. replace (Z.of_nat (S k)) with (Z.of_nat k + 1) by lia. rewrite zrange_succ by lia. rewrite foldM_app, EB. cbn [bind foldM].
      assert (length (cycle l) = length l) as Lc by apply cycle_length.
      assert (Permutation B (skipn (S k) (cycle l))) as PB'. { apply (Permutation_app_inv_l (firstn (S k) (cycle l))). rewrite firstn_skipn. exact PB. }
      destruct (nth_error (cycle l) k) as [a|] eqn:Ea; [|apply nth_error_None in Ea; lia]. destruct (nth_error (cycle l) (S k)) as [b|] eqn:Eb; [|apply nth_error_None in Eb; lia].
      assert (firstn (S k) (cycle l) = firstn k (cycle l) ++ [a]) as E1. { clear -Ea. revert k Ea. generalize (cycle l). induction l0 as [|c m IH]; intros [|k] E; cbn in *; try discriminate; [injection E as ->; reflexivity|]. f_equal. apply IH, E. }
      assert (skipn (S k) (cycle l) = b :: skipn (S (S k)) (cycle l)) as E2. { clear -Eb. revert Eb. generalize (S k). generalize (cycle l). induction l0 as [|c m IH]; intros [|j] E; cbn in *; try discriminate; [injection E as ->; reflexivity|]. apply IH, E. }
      assert (firstn (S (S k)) (cycle l) = firstn (S k) (cycle l) ++ [b]) as E3. { clear -Eb. revert Eb. generalize (S k). generalize (cycle l). induction l0 as [|c m IH]; intros [|j] E; cbn in *; try discriminate; [injection E as ->; reflexivity|]. f_equal. apply IH, E. }
      assert (snd a = fst b) as Eab. { apply (cycle_next l (firstn k (cycle l)) a b (skipn (S (S k)) (cycle l))). rewrite <- (firstn_skipn (S k) (cycle l)) at 1. rewrite E2, E1, <- app_assoc. reflexivity. }
      destruct (first_start B (snd a)) as (B1 & b' & B2 & EBs & Hb' & HB1). { exists b. split; [|congruence]. apply (Permutation_in b (Permutation_sym PB')). rewrite E2. left. reflexivity. }
      assert (b' = b) as ->. { apply (NoDup_fst_inj (cycle l)); [rewrite cycle_fst; exact Hl | | apply (nth_error_In _ _ Eb) | congruence].
        apply (Permutation_in b' PB). apply in_or_app. right. rewrite EBs. apply in_or_app. right. left. reflexivity. }
      rewrite EBs, E1. assert (zlen (firstn k (cycle l)) = Z.of_nat k) as Lk by (unfold zlen; rewrite firstn_length; lia).
      destruct (order_step_found n (firstn k (cycle l)) a B1 B2 b) as (B' & EB' & PB2).
      + congruence.
      + exact HB1.
      + rewrite <- E1, <- EBs. rewrite En. unfold zlen. apply Permutation_length in PB. rewrite PB, Lc. reflexivity.
      + rewrite Lk in EB'. rewrite EB'. cbn [bind]. exists B'. rewrite E3, E1. rewrite <- (app_assoc _ [b] B'). cbn [app]. split; [reflexivity|]. rewrite PB2, <- E1, <- EBs. exact PB. }
  destruct (K (length l - 1)%nat) as (B & EB & PB). { unfold zlen in En. lia. }
  replace (Z.of_nat (length l - 1)) with (n - 1) in EB by (unfold zlen in En; lia). rewrite EB. f_equal.
  replace (S (length l - 1)) with (length (cycle l)) in * by (rewrite cycle_length; unfold zlen in En; lia). rewrite firstn_all in *. apply Permutation_length in PB. rewrite app_length in PB. destruct B; [apply app_nil_r | cbn in PB; lia].
Qed.

(** start the cycle at a given pair *)
Lemma cycle_start l p : In p (cycle l) -> NoDup l -> exists l' r, rotated l l' /\ cycle l' = p :: r /\ Permutation (cycle l') (cycle l) /\ Permutation l' l.
Proof.
  intros Hp Hl. assert (In (fst p) l) as Hf by (rewrite <- cycle_fst; apply in_map, Hp). apply in_split in Hf as (P & T & ->).
  exists ((fst p :: T) ++ P). assert (Permutation (cycle ((fst p :: T) ++ P)) (cycle (P ++ fst p :: T))) as HP by apply cycle_rotate.
  destruct (cycle ((fst p :: T) ++ P)) as [|q r] eqn:E; [pose proof (cycle_fst ((fst p :: T) ++ P)) as F; rewrite E in F; discriminate F|]. exists r. split; [exists P, (fst p :: T); auto|]. assert (q = p) as ->.
  { apply (NoDup_fst_inj (cycle (P ++ fst p :: T))); [rewrite cycle_fst; exact Hl | | exact Hp |].
    - apply (Permutation_in q HP). left. reflexivity.
    - pose proof (cycle_fst ((fst p :: T) ++ P)) as F. rewrite E in F. cbn in F. congruence. }
  split; [reflexivity|]. split; [exact HP|]. apply Permutation_app_comm.
Qed.

Lemma mapM_total' {A B} (f : A -> res B) l : (forall x, In x l -> exists y, f x = Ok y) -> exists r, mapM f l = Ok r.
Proof. exact (P_Graph.mapM_total f l). Qed.
Lemma Forall2_nth' {A B} (P : A -> B -> Prop) l : forall m, length l = length m -> (forall i x y, nth_error l i = Some x -> nth_error m i = Some y -> P x y) -> Forall2 P l m.
Proof.
  induction l as [|x l IH]; intros [|y m] E H; cbn in E; try discriminate; constructor; [apply (H 0%nat); reflexivity|]. apply IH; [lia|]. intros i a b Ha Hb. apply (H (S i)); assumption.
Qed.

(** ** the tets *)
Lemma down6 w : 0 <= w < 6 -> w = 0 \/ w = 1 \/ w = 2 \/ w = 3 \/ w = 4 \/ w = 5.
Proof. lia. Qed.
Lemma opposite_spec e0 e1 a b c d w rot : code_aligns e0 e1 [a; b; c; d] w rot (simplex_down_template 3 1) ->
  exists x y, zget [a; b; c; d] (simplex_down_template 3 1 (simplex_opposite_template 3 1 w) (Z.lxor rot 0)) = Ok x /\
  zget [a; b; c; d] (simplex_down_template 3 1 (simplex_opposite_template 3 1 w) (Z.lxor rot 1)) = Ok y /\ same_orientation [e0; e1; x; y] [a; b; c; d].
Proof.
  intros (Hw & Hr & H0 & H1). assert (rot = 0 \/ rot = 1) as Hr' by lia. apply down6 in Hw.
  destruct Hw as [->|[->|[->|[->|[->| ->]]]]], Hr' as [->| ->]; vm_compute in H0, H1; injection H0 as <-; injection H1 as <-; eexists _, _; (split; [vm_compute; reflexivity|]; split; [vm_compute; reflexivity|]); cbn [same_orientation In]; tauto.
Qed.
Lemma same_orientation_pair e0 e1 x y x' y' t : NoDup [e0; e1; x; y] -> same_orientation [e0; e1; x; y] t -> same_orientation [e0; e1; x'; y'] t -> x = x' /\ y = y'.
Proof.
  intros Hn H H'. inversion Hn as [|? ? N1 Hn1]; subst. inversion Hn1 as [|? ? N2 Hn2]; subst. inversion Hn2 as [|? ? N3 _]; subst. cbn [In] in N1, N2, N3.
  cbn [same_orientation In] in H, H'. intuition (subst; try congruence).
Qed.

Lemma cycle_ne l p : NoDup l -> 2 <= zlen l -> In p (cycle l) -> fst p <> snd p /\ In (fst p) l /\ In (snd p) l.
Proof.
  intros Hl H2 Hp. destruct (cycle_start l p Hp Hl) as (l' & r & Hr & Hc & _ & HP). apply (Permutation_NoDup (Permutation_sym HP)) in Hl.
  assert (zlen l' = zlen l) as Z by (unfold zlen; rewrite (Permutation_length HP); reflexivity). rewrite <- Z in H2.
  destruct l' as [|x [|y t]]; [unfold zlen in H2; cbn in H2; lia.. |]. cbn in Hc. injection Hc as <- _. cbn [fst snd]. inversion Hl as [|? ? N _]; subst. 
  split; [intros ->; apply N; left; reflexivity|]. split; apply (Permutation_in _ HP); cbn; auto.
Qed.

Lemma tet_pairs e0 e1 l tets pairs ends : NoDup (e0 :: e1 :: l) -> 2 <= zlen l -> Permutation pairs (cycle l) ->
  Forall2 (fun t p => same_orientation [e0; e1; fst p; snd p] t) tets pairs -> Forall2 (fun t p => same_orientation [e0; e1; fst p; snd p] t) tets ends -> ends = pairs.
Proof.
  intros Hn H2 HP H. assert (forall p, In p pairs -> In p (cycle l)) as HI by (intros p; apply (Permutation_in p HP)). clear HP. revert ends.
  induction H as [|t p tets pairs H _ IH]; intros ends K; inversion K as [|? q ? ends' K1 K2]; subst; [reflexivity|]. f_equal; [|apply IH; [intros p' Hp'; apply HI; right; exact Hp' | exact K2]].
  destruct (cycle_ne l p) as (N1 & N2 & N3); [inversion Hn as [|? ? _ Hn1]; inversion Hn1; assumption | exact H2 | apply HI; left; reflexivity|].
  destruct (same_orientation_pair e0 e1 (fst p) (snd p) (fst q) (snd q) t) as [E1 E2]; [|assumption..|destruct p, q; cbn in *; congruence].
  inversion Hn as [|? ? M1 Hn1]; subst. inversion Hn1 as [|? ? M2 _]; subst. cbn [In] in M1.
  constructor; [cbn [In]; intros [X|[X|[X|[]]]]; apply M1; [left; exact X | right; rewrite <- X; assumption..]|].
  constructor; [cbn [In]; intros [X|[X|[]]]; apply M2; rewrite <- X; assumption|]. constructor; [cbn [In]; intros [X|[]]; congruence|]. constructor; [intros []|constructor].
Qed.

(** ** find_loop *)
Section find.
Variables (e2et et2t codes ev2v tv2v : list Z) (edge b e e0 e1 : Z) (l : list Z) (tets : list (list Z)).
Hypothesis Hb : zget e2et edge = Ok b.
Hypothesis He : zget e2et (edge + 1) = Ok e.
Hypothesis H0 : zget ev2v (edge * 2 + 0) = Ok e0.
Hypothesis H1 : zget ev2v (edge * 2 + 1) = Ok e1.
Hypothesis Htets : mapM (fun u => t <- zget et2t u ;; verts_of 4 tv2v t) (zfromto b e) = Ok tets.
Hypothesis Hcodes : forall i t, zget tets i = Ok t -> exists code, zget codes (b + i) = Ok code /\ code_aligns e0 e1 t (code_which_down code) (code_rotation code) (simplex_down_template 3 1).
Hypothesis Hring : ring_of_tets e0 e1 l tets.

Lemma verts_of_4 t x y z w : verts_of 4 tv2v t = Ok [x; y; z; w] -> forall j v, zget [x; y; z; w] j = Ok v -> zget tv2v (t * 4 + j) = Ok v.
Proof.
  intros H j v Hj. unfold verts_of in H. apply mapM_ok in H. change (zrange 4) with [0; 1; 2; 3] in H. inversion H as [|? ? ? ? A1 R1]; subst. inversion R1 as [|? ? ? ? A2 R2]; subst. inversion R2 as [|? ? ? ? A3 R3]; subst. inversion R3 as [|? ? ? ? A4 R4]; subst.
  pose proof (zget_bounds _ _ _ Hj) as B. change (zlen [x; y; z; w]) with 4 in B. assert (j = 0 \/ j = 1 \/ j = 2 \/ j = 3) as [-> |[-> |[-> | ->]]] by lia; cbn in Hj; injection Hj as <-; assumption.
Qed.
Lemma tet_len t vs : verts_of 4 tv2v t = Ok vs -> exists x y z w, vs = [x; y; z; w].
Proof. intros H. apply mapM_length in H. change (length (zrange 4)) with 4%nat in H. destruct vs as [|x [|y [|z [|w [|? ?]]]]]; cbn in H; try lia. eauto. Qed.

Lemma ring_ends : 2 <= zlen l -> exists pairs, tabulate (e - b) (fun i => opposite_ends et2t codes tv2v (b + i)) = Ok pairs /\ Permutation pairs (cycle l) /\ zlen l = e - b /\ Forall2 (fun t p => same_orientation [e0; e1; fst p; snd p] t) tets pairs.
Proof.
  intros H2. destruct Hring as (Hn & pairs & HP & HF). 
  assert (zlen tets = zlen (zfromto b e)) as L by (apply mapM_length in Htets; unfold zlen; congruence).
  assert (zlen tets = zlen l) as Ll. { apply Forall2_len in HF. apply Permutation_length in HP. rewrite cycle_length in HP. unfold zlen. congruence. }
  assert (zlen (zfromto b e) = e - b) as Lz. { unfold zfromto in *. rewrite zlen_map in *. unfold zlen, zrange in *. rewrite map_length, seq_length in *. lia. }
  assert (forall i, 0 <= i < e - b -> exists p, opposite_ends et2t codes tv2v (b + i) = Ok p /\ exists t, zget tets i = Ok t /\ same_orientation [e0; e1; fst p; snd p] t) as K.
  { intros i Hi. destruct (zget_in_range tets i) as (t & Ht); [lia|]. destruct (Hcodes i t Ht) as (code & Ec & Ha).
    assert (exists tet, zget et2t (b + i) = Ok tet /\ verts_of 4 tv2v tet = Ok t) as (tet & Et & Ev).
    {       assert (nth_error (zfromto b e) (Z.to_nat i) = Some (b + i)) as Ni. { unfold zfromto. rewrite nth_error_map, zrange_nth by lia. cbn. f_equal. lia. }
      destruct (mapM_nth _ _ _ _ _ Htets Ni) as (t' & Nt & Et'). apply bind_ok in Nt as (tet & A & B'). apply zget_ok in Ht as [_ Ht]. assert (t' = t) as -> by congruence. eauto. }
    destruct (tet_len tet t Ev) as (x & y & z & w & ->). destruct (opposite_spec e0 e1 x y z w _ _ Ha) as (p & q & Ep & Eq & So). exists (p, q). split; [|exists [x; y; z; w]; auto].
    unfold opposite_ends. rewrite Et. cbn [bind]. rewrite Ec. cbn [bind]. rewrite (verts_of_4 _ _ _ _ _ Ev _ _ Ep). cbn [bind]. rewrite (verts_of_4 _ _ _ _ _ Ev _ _ Eq). reflexivity. }
  destruct (mapM_total' (fun i => opposite_ends et2t codes tv2v (b + i)) (zrange (e - b))) as (ends & Ee).
  { intros i Hi. apply in_zrange in Hi. destruct (K i Hi) as (p & E & _). eauto. }
  exists ends. split; [exact Ee|]. enough (ends = pairs) as -> by (split; [exact HP|]; split; [lia|exact HF]). apply (tet_pairs e0 e1 l tets pairs ends Hn H2 HP HF).
  assert (zlen ends = e - b) as Lee. { apply mapM_length in Ee. unfold zlen. rewrite Ee. unfold zrange. rewrite map_length, seq_length. pose proof (zlen_nonneg tets). lia. }
  apply tabulate_ok in Ee; [|pose proof (zlen_nonneg tets); lia]. destruct Ee as [_ Ee]. apply Forall2_nth'; [unfold zlen in *; lia|]. intros i t p Nt Np.
  destruct (Ee (Z.of_nat i)) as (p' & E1 & E2). { assert (i < length ends)%nat by (apply nth_error_Some; congruence). unfold zlen in *. lia. }
  apply zget_ok in E2 as [_ E2]. rewrite Nat2Z.id in E2. assert (p' = p) as -> by congruence.
  destruct (K (Z.of_nat i)) as (p2 & E3 & t2 & E4 & So). { assert (i < length ends)%nat by (apply nth_error_Some; congruence). unfold zlen in *. lia. }
  apply zget_ok in E4 as [_ E4]. rewrite Nat2Z.id in E4. assert (t2 = t) as -> by congruence. assert (p2 = p) as -> by congruence. exact So.
Qed.

Lemma find_loop_spec : 3 <= e - b <= MAX_EDGE_SWAP -> 2 <= zlen l -> exists l', find_loop e2et et2t codes ev2v tv2v edge = Ok (mk_loop (e - b) [e0; e1] l') /\ rotated l l' /\ ring_of_tets e0 e1 l' tets.
Proof.
  intros Hsz H2. destruct (ring_ends H2) as (pairs & Ep & HP & Ll & _). destruct Hring as (Hn & pairs' & HP' & HF).
  assert (NoDup l) as Hl by (inversion Hn as [|? ? _ Hn1]; inversion Hn1; assumption).
  destruct pairs as [|p0 pr]. { apply Permutation_length in HP. rewrite cycle_length in HP. unfold zlen in H2. cbn in HP. lia. }
  destruct (cycle_start l p0) as (l' & r & Hr & Hc & HPc & HPl); [apply (Permutation_in p0 HP); left; reflexivity | exact Hl|].
  assert (zlen l' = e - b) as Ll' by (unfold zlen in *; rewrite (Permutation_length HPl); exact Ll).
  exists l'. split; [|split; [exact Hr|]].
  - unfold find_loop. rewrite Hb. cbn [bind]. rewrite He. cbn [bind]. unfold MAX_EDGE_SWAP in *. destruct (Z.gtb_spec (e - b) 7); [lia|]. destruct (Z.ltb_spec (e - b) 3); [lia|].
    cbn [mapM]. rewrite H0. cbn [bind]. rewrite H1. cbn [bind]. rewrite Ep. cbn [bind]. 
    rewrite (order_all (e - b) l' (p0 :: pr)); [|lia | congruence | apply (Permutation_NoDup (Permutation_sym HPl)), Hl | rewrite HP; symmetry; exact HPc | exists p0, pr, r; auto].
    cbn [bind]. rewrite cycle_fst. reflexivity.
  - split. { apply (Permutation_NoDup (l := e0 :: e1 :: l)); [|exact Hn]. do 2 constructor. symmetry. exact HPl. } exists pairs'. split; [|exact HF]. rewrite HPc. exact HP'.
Qed.
(** when the loop starts at the first tet, it is found as it is *)
Lemma find_loop_first x y l0 t0 : 3 <= e - b <= MAX_EDGE_SWAP -> l = x :: y :: l0 -> zget tets 0 = Ok t0 -> same_orientation [e0; e1; x; y] t0 -> find_loop e2et et2t codes ev2v tv2v edge = Ok (mk_loop (e - b) [e0; e1] l).
Proof.
  intros Hsz El Et So. assert (2 <= zlen l) as H2 by (rewrite El, !zlen_cons; pose proof (zlen_nonneg l0); lia). destruct (ring_ends H2) as (pairs & Ep & HP & Ll & HF). assert (NoDup (e0 :: e1 :: l)) as Hn by apply Hring.
  assert (NoDup l) as Hl by (inversion Hn as [|? ? _ Hn1]; inversion Hn1; assumption).
  destruct pairs as [|p0 pr]. { apply Permutation_length in HP. rewrite cycle_length in HP. unfold zlen in H2. cbn in HP. lia. }
  assert (p0 = (x, y)) as ->.
  { inversion HF as [|t ? ts ? So' _ E1 E2]. rewrite <- E1 in Et. cbn in Et. injection Et as ->. assert (NoDup [e0; e1; x; y]) as N4. { rewrite El in Hn. apply NoDup_cons_iff in Hn as [A Hn]. apply NoDup_cons_iff in Hn as [B Hn]. apply NoDup_cons_iff in Hn as [C Hn]. cbn [In] in *. repeat constructor; cbn [In]; tauto. }
    destruct (same_orientation_pair e0 e1 x y (fst p0) (snd p0) t0 N4 So So') as [-> ->]. destruct p0; reflexivity. }
  unfold find_loop. rewrite Hb. cbn [bind]. rewrite He. cbn [bind]. unfold MAX_EDGE_SWAP in *. destruct (Z.gtb_spec (e - b) 7); [lia|]. destruct (Z.ltb_spec (e - b) 3); [lia|].
  cbn [mapM]. rewrite H0. cbn [bind]. rewrite H1. cbn [bind]. rewrite Ep. cbn [bind]. rewrite (order_all (e - b) l ((x, y) :: pr)); [cbn [bind]; rewrite cycle_fst; reflexivity|lia|congruence|exact Hl|exact HP|].
  exists (x, y), pr. rewrite El. cbn [cycle combine app]. eexists. split; reflexivity.
Qed.
End find.
