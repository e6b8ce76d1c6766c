From Verif Require Import Prelude M_Remove S_Remove.
Local Open Scope nat_scope.

(** * type_of_mode *)
Definition type_eqb (a b : option file_type) : bool :=
  match a, b with
  | None, None | Some Regular, Some Regular | Some Directory, Some Directory | Some Symlink, Some Symlink
  | Some Block, Some Block | Some Character, Some Character | Some Fifo, Some Fifo => true
  | _, _ => false
  end.
Lemma type_eqb_eq a b : type_eqb a b = true -> a = b.
Proof. destruct a as [[]|], b as [[]|]; cbn; congruence. Qed.

Lemma modes_swept : forallb (fun p =>
  type_eqb (type_of_mode (s_ifreg + p)) (Some Regular) && type_eqb (type_of_mode (s_ifdir + p)) (Some Directory) &&
  type_eqb (type_of_mode (s_ififo + p)) (Some Fifo) && type_eqb (type_of_mode (s_ifsock + p)) (Some Regular) &&
  type_eqb (type_of_mode (s_ifblk + p)) (Some Directory) && type_eqb (type_of_mode (s_ifchr + p)) (Some Symlink))%Z (zrange 4096) = true.
Proof. vm_compute. reflexivity. Qed.

Lemma modes_spec p : (0 <= p < 4096)%Z ->
  (type_of_mode (s_ifreg + p) = Some Regular /\ type_of_mode (s_ifdir + p) = Some Directory /\
   type_of_mode (s_ififo + p) = Some Fifo /\ type_of_mode (s_ifsock + p) = Some Regular /\
   type_of_mode (s_ifblk + p) = Some Directory /\ type_of_mode (s_ifchr + p) = Some Symlink)%Z.
Proof.
  intros Hp. pose proof modes_swept as H. rewrite forallb_forall in H. specialize (H p (proj2 (in_zrange _ _) Hp)).
  repeat rewrite andb_true_iff in H. destruct H as (((((H1 & H2) & H3) & H4) & H5) & H6).
  repeat split; apply type_eqb_eq; assumption.
Qed.

(** * remove_all *)
Lemma assoc_In n es i : assoc n es = Some i -> In (n, i) es.
Proof.
  induction es as [|[m j] t IH]; [discriminate|]. cbn [assoc]. destruct (Nat.eqb_spec m n) as [->|Hn]; intros E.
  - left. congruence.
  - right. auto.
Qed.
Lemma assoc_mid n k e1 e2 : NoDup (map fst (e1 ++ (n, k) :: e2)) -> assoc n (e1 ++ (n, k) :: e2) = Some k.
Proof.
  induction e1 as [|[m j] t IH]; intros HN.
  - cbn. rewrite Nat.eqb_refl. reflexivity.
  - cbn [app map] in HN. inversion HN as [|x l H1 H2]; subst. cbn [app assoc fst] in *. destruct (Nat.eqb_spec m n) as [->|Hn]; [|auto].
    exfalso. apply H1. rewrite map_app. apply in_or_app. right. left. reflexivity.
Qed.
Lemma drop_notin n es : ~ In n (map fst es) -> drop n es = es.
Proof.
  induction es as [|[m j] t IH]; intros H; [reflexivity|]. cbn [drop filter fst] in *. cbn [map fst In] in H.
  destruct (Nat.eqb_spec m n) as [->|Hn]; [exfalso; auto|]. cbn [negb]. f_equal. apply IH. auto.
Qed.
Lemma drop_mid n k e1 e2 : NoDup (map fst (e1 ++ (n, k) :: e2)) -> drop n (e1 ++ (n, k) :: e2) = e1 ++ e2.
Proof.
  intros HN. unfold drop. rewrite filter_app. cbn [filter fst]. rewrite Nat.eqb_refl. cbn [negb].
  rewrite map_app in HN. cbn [map fst] in HN. apply NoDup_remove_2 in HN. rewrite in_app_iff in HN.
  fold (drop n e1). fold (drop n e2). rewrite !drop_notin by tauto. reflexivity.
Qed.

Lemma Forall2_mid {A B} (R : A -> B -> Prop) l m i x : Forall2 R l m -> nth_error l i = Some x ->
  exists l1 l2 m1 y m2, l = l1 ++ x :: l2 /\ m = m1 ++ y :: m2 /\ R x y /\ Forall2 R l1 m1 /\ Forall2 R l2 m2.
Proof.
  intros H. revert i. induction H as [|a b l m Hab H IH]; intros [|i] E; try discriminate; cbn in E.
  - injection E as ->. exists [], l, [], b, m. auto 10.
  - destruct (IH i E) as (l1 & l2 & m1 & y & m2 & -> & -> & H1 & H2 & H3). exists (a :: l1), l2, (b :: m1), y, m2. auto 10.
Qed.

Lemma dirs_mid d m1 c m2 : Permutation (dirs (Node d (m1 ++ c :: m2))) (dirs (snd c) ++ dirs (Node d (m1 ++ m2))).
Proof.
  cbn [dirs]. rewrite !flat_map_app. cbn [flat_map].
  apply Permutation_trans with (d :: dirs (snd c) ++ flat_map (fun c => dirs (snd c)) m1 ++ flat_map (fun c => dirs (snd c)) m2).
  - constructor. rewrite !app_assoc. apply Permutation_app_tail. apply Permutation_app_comm.
  - apply Permutation_middle.
Qed.
Lemma size_mid d m1 c m2 : size (Node d (m1 ++ c :: m2)) = size (snd c) + size (Node d (m1 ++ m2)).
Proof. cbn [size]. rewrite !map_app, !list_sum_app. cbn [map list_sum fold_right]. change (fold_right Nat.add 0) with list_sum. lia. Qed.
Lemma size_pos t : 0 < size t.
Proof. destruct t; cbn; lia. Qed.

Section TreeInd.
Variable P : tree -> Prop.
Hypothesis HL : P Leaf.
Hypothesis HN : forall d ch, Forall (fun c => P (snd c)) ch -> P (Node d ch).
Fixpoint tree_ind' (t : tree) : P t :=
  match t with
  | Leaf => HL
  | Node d ch => HN d ch ((fix go l : Forall (fun c => P (snd c)) l :=
      match l with [] => Forall_nil _ | c :: l => Forall_cons _ (tree_ind' (snd c)) (go l) end) ch)
  end.
End TreeInd.

Lemma dirs_are_dirs f (safe : nat -> Prop) : forall t i, is_tree f safe i t -> forall x, In x (dirs t) -> exists es, f x = Some (Dir es).
Proof.
  induction t as [|d ch IH] using tree_ind'; intros i H x Hx; [destruct Hx|].
  inversion H as [| |d' es ch' Ed HN HF]; subst. destruct Hx as [<-|Hx]; [eauto|].
  apply in_flat_map in Hx as (c & Hc & Hx). rewrite Forall_forall in IH. specialize (IH c Hc).
  clear - HF Hc Hx IH. induction HF as [|e c' es ch [_ H] _ IHF]; [destruct Hc|]. destruct Hc as [->|Hc]; [exact (IH _ H x Hx)|exact (IHF Hc)].
Qed.

Lemma frame f f' (safe : nat -> Prop) : (forall x nd, f x = Some nd -> (forall es, nd <> Dir es) -> f' x = f x) ->
  (forall d, safe d -> f' d = f d) ->
  forall t i, is_tree f safe i t -> (forall x, In x (dirs t) -> f' x = f x) -> is_tree f' safe i t.
Proof.
  intros H1 H2. 
  assert (HP : forall i, plain f i -> plain f' i).
  { intros i (mode & ty & E & Et & Hn). exists mode, ty. split; [|auto]. rewrite (H1 i _ E); [exact E|congruence]. }
  induction t as [|d ch IH] using tree_ind'; intros i H Hd.
  - inversion H as [? Hp|? d n j Ei Hs Ee Hp|]; subst.
    + apply is_leaf, HP, Hp.
    + apply (is_link f' safe i d n j); auto.
      * rewrite (H1 i _ Ei); [exact Ei|congruence].
      * unfold entry in *. rewrite (H2 d Hs). exact Ee.
  - inversion H as [| |d' es ch' Ed HN HF]; subst. apply (is_node f' safe d es ch).
    + rewrite Hd by (left; reflexivity). exact Ed.
    + exact HN.
    + assert (Hd' : forall x, In x (flat_map (fun c => dirs (snd c)) ch) -> f' x = f x) by (intros x Hx; apply Hd; right; exact Hx).
      clear - HF IH Hd'. induction HF as [|e c es ch [He H] _ IHF]; constructor.
      * split; [exact He|]. inversion IH as [|? ? Hc _]; subst. apply (Hc (snd e) H). intros x Hx. apply Hd'. cbn [flat_map]. apply in_or_app. left. exact Hx.
      * inversion IH; subst. apply IHF; [assumption|]. intros x Hx. apply Hd'. cbn [flat_map]. apply in_or_app. right. exact Hx.
Qed.

Lemma remove_spec f dir name i es : f dir = Some (Dir es) -> assoc name es = Some i ->
  (f i = Some (Dir []) \/ exists nd, f i = Some nd /\ forall es, nd <> Dir es) ->
  remove f dir name = Some (upd f dir (Dir (drop name es))).
Proof.
  intros Ed Ea H. unfold remove, entry. rewrite Ed, Ea. destruct H as [->|(nd & -> & Hn)]; [reflexivity|].
  destruct nd as [[|e l]| |]; try reflexivity. destruct (Hn (e :: l)). reflexivity.
Qed.

Lemma leaf_kind f safe k : is_tree f safe k Leaf -> is_directory f k = Some false /\ exists nd, f k = Some nd /\ forall es, nd <> Dir es.
Proof.
  intros H. inversion H as [? (mode & ty & E & Et & Hn)|? d n j Ei Hs Ee (mode & ty & E & Et & Hn)|]; subst; unfold is_directory, max_links; cbn [follow].
  - rewrite E, Et. split; [destruct ty; congruence|]. eexists. split; [reflexivity|congruence].
  - rewrite Ei, Ee. cbn [follow]. rewrite E, Et. split; [destruct ty; congruence|]. eexists. split; [reflexivity|congruence].
Qed.

Lemma nth_mod {A} (l : list A) k : l <> [] -> exists x, nth_error l (k mod length l) = Some x.
Proof.
  intros H. destruct (nth_error l (k mod length l)) as [x|] eqn:E; [eauto|]. apply nth_error_None in E.
  assert (length l <> 0) by (destruct l; [congruence|discriminate]). pose proof (Nat.mod_upper_bound k (length l)). lia.
Qed.

Lemma upd_eq f i nd : upd f i nd i = Some nd.
Proof. unfold upd. rewrite Nat.eqb_refl. reflexivity. Qed.
Lemma upd_ne f i nd j : j <> i -> upd f i nd j = f j.
Proof. intros H. unfold upd. apply Nat.eqb_neq in H. rewrite H. reflexivity. Qed.

Lemma remove_all_tree pick (safe : nat -> Prop) : forall fuel d0 ch, size (Node d0 ch) <= fuel -> forall f dir name es0,
  is_tree f safe d0 (Node d0 ch) -> NoDup (dirs (Node d0 ch)) -> (forall x, safe x -> ~ In x (dirs (Node d0 ch))) ->
  f dir = Some (Dir es0) -> assoc name es0 = Some d0 -> ~ In dir (dirs (Node d0 ch)) ->
  exists f', remove_all pick fuel f dir name = Removed f' (size (Node d0 ch)) /\ f' dir = Some (Dir (drop name es0)) /\
  forall x, x <> dir -> ~ In x (dirs (Node d0 ch)) -> f' x = f x.
Proof.
  induction fuel as [|fuel IH]; intros d0 ch Hsz f dir name es0 HT HN Hsafe Hdir Hname Hnin; [cbn in Hsz; lia|].
  inversion HT as [| |d' es ch' Ed Hnames HF]; subst.
  cbn [remove_all]. assert (Ee : entry f dir name = Some d0) by (unfold entry; rewrite Hdir; exact Hname). rewrite Ee.
  assert (Ef : follow max_links f d0 = Some (d0, Dir es)) by (unfold max_links; cbn [follow]; rewrite Ed; reflexivity). rewrite Ef.
  assert (Hd0 : dir <> d0) by (intros ->; apply Hnin; left; reflexivity).
  destruct es as [|e0 et].
  - inversion HF; subst. cbn [length]. assert (nth_error (@nil (nat * nat)) (pick f d0 mod 0) = None) as -> by (destruct (pick f d0 mod 0); reflexivity).
    rewrite (remove_spec f dir name d0 es0 Hdir Hname (or_introl Ed)). eexists. split; [reflexivity|]. split; [apply upd_eq|].
    intros x Hx _. apply upd_ne, Hx.
  - destruct (nth_mod (e0 :: et) (pick f d0)) as ((n & k) & Ek); [discriminate|]. rewrite Ek.
    destruct (Forall2_mid _ _ _ _ _ HF Ek) as (e1 & e2 & m1 & (n' & c) & m2 & Ees & -> & [En Hc] & F1 & F2). cbn [fst snd] in En, Hc. subst n'.
    rewrite Ees in *. clear Ees e0 et Ek.
    pose proof (dirs_mid d0 m1 (n, c) m2) as PD. pose proof (size_mid d0 m1 (n, c) m2) as SZ. cbn [snd] in PD, SZ.
    assert (NDc : NoDup (dirs c) /\ NoDup (dirs (Node d0 (m1 ++ m2))) /\ forall x, In x (dirs c) -> ~ In x (dirs (Node d0 (m1 ++ m2)))).
    { pose proof (Permutation_NoDup PD HN) as ND. clear - ND. induction (dirs c) as [|x l IH]; cbn [app] in ND.
      - split; [constructor|]. split; [exact ND|]. intros x [].
      - inversion ND as [|? ? H1 H2]; subst. destruct (IH H2) as (A & B & C). split; [constructor; [|exact A]; intros H; apply H1, in_or_app; auto|].
        split; [exact B|]. intros y [<-|Hy]; [|exact (C y Hy)]. intros H. apply H1, in_or_app. auto. }
    destruct NDc as (ND1 & ND2 & ND3).
    assert (In1 : forall x, In x (dirs c) -> In x (dirs (Node d0 (m1 ++ (n, c) :: m2)))) by (intros x Hx; apply (Permutation_in _ (Permutation_sym PD)), in_or_app; auto).
    assert (In2 : forall x, In x (dirs (Node d0 (m1 ++ m2))) -> In x (dirs (Node d0 (m1 ++ (n, c) :: m2)))) by (intros x Hx; apply (Permutation_in _ (Permutation_sym PD)), in_or_app; auto).
    (* one pass leaves f1 with the entry gone and only the subtree's directories changed *)
    assert (Pass : exists f1, f1 d0 = Some (Dir (e1 ++ e2)) /\ (forall x, x <> d0 -> ~ In x (dirs c) -> f1 x = f x) /\
      match is_directory f k with
      | None => Threw f
      | Some true => match remove_all pick fuel f d0 n with Removed f' c => add_count c (remove_all pick fuel f' dir name) | o => o end
      | Some false => match remove f d0 n with Some f' => add_count 1 (remove_all pick fuel f' dir name) | None => Threw f end
      end = add_count (size c) (remove_all pick fuel f1 dir name)).
    { destruct c as [|k' ch'].
      - destruct (leaf_kind f safe k Hc) as (Ek & Kind). rewrite Ek.
        rewrite (remove_spec f d0 n k (e1 ++ (n, k) :: e2) Ed (assoc_mid _ _ _ _ Hnames) (or_intror Kind)).
        rewrite (drop_mid _ _ _ _ Hnames). eexists. split; [apply upd_eq|]. split; [intros x Hx _; apply upd_ne, Hx|reflexivity].
      - assert (k = k') by (inversion Hc; reflexivity). subst k'.
        assert (Ek : is_directory f k = Some true).
        { inversion Hc as [| |? ees ? Ek' _ _]; subst. unfold is_directory, max_links. cbn [follow]. rewrite Ek'. reflexivity. }
        rewrite Ek. destruct (IH k ch') with (f := f) (dir := d0) (name := n) (es0 := e1 ++ (n, k) :: e2) as (f1 & E1 & G1 & G2).
        + pose proof (size_pos (Node d0 (m1 ++ m2))). lia.
        + exact Hc.
        + exact ND1.
        + intros x Hx H. exact (Hsafe x Hx (In1 x H)).
        + exact Ed.
        + apply assoc_mid, Hnames.
        + intros H. apply (ND3 d0 H). left. reflexivity.
        + exists f1. rewrite (drop_mid _ _ _ _ Hnames) in G1. split; [exact G1|]. split; [exact G2|]. rewrite E1. reflexivity. }
    destruct Pass as (f1 & G1 & G2 & ->).
    assert (Keep : forall x, x <> d0 -> ~ In x (dirs c) -> f1 x = f x) by exact G2.
    assert (Fr : Forall2 (fun e c => fst e = fst c /\ is_tree f1 safe (snd e) (snd c)) (e1 ++ e2) (m1 ++ m2)).
    { assert (FO : Forall2 (fun e c => fst e = fst c /\ is_tree f safe (snd e) (snd c)) (e1 ++ e2) (m1 ++ m2)) by (apply Forall2_app; assumption).
      assert (Hkeep : forall x, In x (flat_map (fun c => dirs (snd c)) (m1 ++ m2)) -> f1 x = f x).
      { intros x Hx. apply Keep.
        - intros ->. cbn [dirs] in ND2. inversion ND2; contradiction.
        - intros H. apply (ND3 x H). right. exact Hx. }
      clear - FO Hkeep Keep Hsafe In1 HT Hc Ed. induction FO as [|e c' es ch [He H] _ IHF]; constructor.
      - split; [exact He|]. apply (frame f f1 safe) with (t := snd c') (i := snd e).
        + intros x nd Ex Hnd. apply Keep; [intros ->; rewrite Ed in Ex; injection Ex as <-; exact (Hnd _ eq_refl)|].
          intros Hx. destruct (dirs_are_dirs f safe c k Hc x Hx) as (ess & Es). rewrite Es in Ex. injection Ex as <-. exact (Hnd _ eq_refl).
        + intros x Hx. apply Keep; [intros ->; apply (Hsafe d0 Hx); left; reflexivity|]. intros H'. exact (Hsafe x Hx (In1 x H')).
        + exact H.
        + intros x Hx. apply Hkeep. cbn [flat_map]. apply in_or_app. left. exact Hx.
      - apply IHF. intros x Hx. apply Hkeep. cbn [flat_map]. apply in_or_app. right. exact Hx. }
    destruct (IH d0 (m1 ++ m2)) with (f := f1) (dir := dir) (name := name) (es0 := es0) as (f2 & E2 & H1 & H2).
    + pose proof (size_pos c). lia.
    + apply (is_node f1 safe d0 (e1 ++ e2) (m1 ++ m2) G1); [|exact Fr].
      rewrite map_app in *. cbn [map fst] in Hnames. apply NoDup_remove_1 in Hnames. exact Hnames.
    + exact ND2.
    + intros x Hx H. exact (Hsafe x Hx (In2 x H)).
    + rewrite Keep; [exact Hdir|exact Hd0|]. intros H. exact (Hnin (In1 dir H)).
    + exact Hname.
    + intros H. exact (Hnin (In2 dir H)).
    + exists f2. rewrite E2. cbn [add_count]. split; [f_equal; lia|]. split; [exact H1|].
      intros x Hx Hnx. rewrite H2; [|exact Hx|intros H; exact (Hnx (In2 x H))]. apply Keep; [|intros H; exact (Hnx (In1 x H))].
      intros ->. apply Hnx. left. reflexivity.
Qed.

Lemma remove_all_exact pick f dir name es0 d ch fuel :
  is_tree f (fun x => ~ In x (dirs (Node d ch))) d (Node d ch) -> NoDup (dirs (Node d ch)) ->
  f dir = Some (Dir es0) -> assoc name es0 = Some d -> ~ In dir (dirs (Node d ch)) -> size (Node d ch) <= fuel ->
  exists f', remove_all pick fuel f dir name = Removed f' (size (Node d ch)) /\ f' dir = Some (Dir (drop name es0)) /\
  forall x, x <> dir -> ~ In x (dirs (Node d ch)) -> f' x = f x.
Proof. intros. eapply remove_all_tree; try eassumption. auto. Qed.

(** Examples of trees with links. *)
Lemma follows_links : exists f' n, remove_all (fun _ _ => 0) 10 link_fs 0 0 = Removed f' n /\
  entry link_fs 2 0 = Some 4 /\ entry f' 2 0 = None.
Proof. eexists _, _. split; [reflexivity|]. split; reflexivity. Qed.

Lemma inner_link_throws : (exists f' n, remove_all (fun _ _ => 1) 10 inner_fs 0 0 = Removed f' n) /\
  (exists f', forall fuel, 2 <= fuel -> remove_all (fun _ _ => 0) fuel inner_fs 0 0 = Threw f' /\ entry f' 0 0 = Some 1 /\ entry f' 1 0 = None).
Proof.
  split; [eexists _, _; reflexivity|]. eexists. intros [|[|fuel]] H; try lia. split; [reflexivity|]. split; reflexivity.
Qed.
