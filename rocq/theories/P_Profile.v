From Verif Require Import Prelude M_Profile S_Profile.
Local Open Scope nat_scope.

(** * Vectors and strings *)
Lemma vget_ok {A} (l : list A) i a : vget l i = Ok a <-> nth_error l i = Some a.
Proof. unfold vget. destruct (nth_error l i); split; congruence. Qed.
Lemma vset_lt {A} (l : list A) i v : i < length l -> vset l i v = Ok (list_set l i v).
Proof. intros H. unfold vset. apply Nat.ltb_lt in H. rewrite H. reflexivity. Qed.
Lemma nth_lt {A} (l : list A) i : i < length l -> exists a, nth_error l i = Some a.
Proof. intros H. destruct (nth_error l i) eqn:E; [eauto|]. apply nth_error_None in E. lia. Qed.
Lemma lt_nth {A} (l : list A) i a : nth_error l i = Some a -> i < length l.
Proof. intros E. apply nth_error_Some. congruence. Qed.

Lemma strcmp0_spec : forall a b, strcmp0 a b = true <-> a = b.
Proof.
  induction a as [|x a IH]; intros [|y b]; cbn; try (split; [discriminate|congruence]); [tauto|].
  rewrite andb_true_iff, IH, Z.eqb_eq. split; [intuition congruence|]. intros E. split; congruence.
Qed.
Lemma cstr_app l m s : cstr l = Ok s -> cstr (l ++ m) = Ok s.
Proof.
  revert s. induction l as [|c t IH]; intros s E; [discriminate|]. cbn in *. destruct (Z.eqb_spec c 0); [exact E|].
  destruct (cstr t) as [r| |]; try discriminate. rewrite (IH r eq_refl). exact E.
Qed.
Lemma cstr_save s m : ~ In 0%Z s -> cstr (s ++ 0%Z :: m) = Ok s.
Proof.
  induction s as [|c t IH]; intros H; cbn; [reflexivity|]. destruct (Z.eqb_spec c 0); [exfalso; apply H; left; auto|].
  rewrite IH; [reflexivity|]. intros Hi. apply H. right. exact Hi.
Qed.
Lemma skipn_app_l {A} (l m : list A) i : i <= length l -> skipn i (l ++ m) = skipn i l ++ m.
Proof. intros H. rewrite skipn_app. replace (i - length l) with 0 by lia. reflexivity. Qed.
Lemma get_app chars m i s : get chars i = Ok s -> get (chars ++ m) i = Ok s.
Proof.
  unfold get. intros E. destruct (Nat.le_gt_cases i (length chars)) as [H|H].
  - rewrite skipn_app_l by exact H. apply cstr_app, E.
  - rewrite skipn_all2 in E by lia. discriminate.
Qed.
Lemma get_saved chars s : ~ In 0%Z s -> get (chars ++ s ++ [0%Z]) (length chars) = Ok s.
Proof. intros H. unfold get. rewrite skipn_app_l by lia. rewrite skipn_all. apply cstr_save, H. Qed.

(** * Children and sibling chains *)
Definition opt_eqb (a b : option nat) : bool :=
  match a, b with None, None => true | Some x, Some y => x =? y | _, _ => false end.
Lemma opt_eqb_spec a b : opt_eqb a b = true <-> a = b.
Proof. destruct a, b; cbn; try rewrite Nat.eqb_eq; split; congruence. Qed.

Definition is_child (fs : list frame) (p : option nat) (i : nat) : bool :=
  match nth_error fs i with Some f => opt_eqb (parent f) p | None => false end.
Definition children (fs : list frame) (p : option nat) : list nat := filter (is_child fs p) (seq 0 (length fs)).

Lemma is_child_true fs p i : is_child fs p i = true <-> exists f, nth_error fs i = Some f /\ parent f = p.
Proof.
  unfold is_child. destruct (nth_error fs i) as [f|].
  - rewrite opt_eqb_spec. split; [eauto|]. intros (g & E & H). congruence.
  - split; [discriminate|]. intros (g & E & _). discriminate.
Qed.
Lemma in_children fs p i : In i (children fs p) <-> exists f, nth_error fs i = Some f /\ parent f = p.
Proof.
  unfold children. rewrite filter_In, is_child_true, in_seq. split; [tauto|]. intros (f & E & H).
  split; [|eauto]. apply lt_nth in E. lia.
Qed.
Lemma children_NoDup fs p : NoDup (children fs p).
Proof. apply NoDup_filter, seq_NoDup. Qed.

(** [i] is the head of the chain visiting [l]. *)
Fixpoint seg (fs : list frame) (i : option nat) (l : list nat) : Prop :=
  match l with
  | [] => i = None
  | x :: t => i = Some x /\ exists f, nth_error fs x = Some f /\ seg fs (next_sibling f) t
  end.
Definition last_opt (l : list nat) : option nat := match rev l with [] => None | x :: _ => Some x end.
Lemma last_opt_snoc l x : last_opt (l ++ [x]) = Some x.
Proof. unfold last_opt. rewrite rev_app_distr. reflexivity. Qed.
Lemma snoc_cases {A} (l : list A) : l = [] \/ exists m x, l = m ++ [x].
Proof. destruct (rev l) as [|x m] eqn:E; [left|right].
  - rewrite <- (rev_involutive l), E. reflexivity.
  - exists (rev m), x. rewrite <- (rev_involutive l), E. reflexivity.
Qed.

Lemma seg_frame fs fs' l : (forall x f, In x l -> nth_error fs x = Some f -> exists f', nth_error fs' x = Some f' /\ next_sibling f' = next_sibling f) ->
  forall i, seg fs i l -> seg fs' i l.
Proof.
  induction l as [|x t IH]; intros H i S; [exact S|]. destruct S as (Ei & f & Ef & S). split; [exact Ei|].
  destruct (H x f (or_introl eq_refl) Ef) as (f' & Ef' & En). exists f'. split; [exact Ef'|]. rewrite En. apply IH; [|exact S].
  intros y g Hy. apply H. right. exact Hy.
Qed.
Lemma seg_snoc fs fs' n l x i : seg fs i (l ++ [x]) -> NoDup (l ++ [x]) ->
  (forall y f, In y l -> nth_error fs y = Some f -> exists f', nth_error fs' y = Some f' /\ next_sibling f' = next_sibling f) ->
  (exists f', nth_error fs' x = Some f' /\ next_sibling f' = Some n) -> (exists f', nth_error fs' n = Some f' /\ next_sibling f' = None) ->
  seg fs' i (l ++ [x; n]).
Proof.
  intros S ND H Hx Hn. revert i S ND H. induction l as [|y t IH]; intros i S ND H.
  - destruct S as (Ei & f & Ef & S). split; [exact Ei|]. destruct Hx as (f' & E' & N'). exists f'. split; [exact E'|]. rewrite N'.
    split; [reflexivity|]. destruct Hn as (g & Eg & Ng). exists g. split; [exact Eg|]. exact Ng.
  - destruct S as (Ei & f & Ef & S). split; [exact Ei|]. destruct (H y f (or_introl eq_refl) Ef) as (f' & Ef' & En).
    exists f'. split; [exact Ef'|]. rewrite En. apply IH; [exact S|inversion ND; assumption|]. intros z g Hz. apply H. right. exact Hz.
Qed.

(** * The invariant *)
Definition first_of (h : history) (p : option nat) : option nat :=
  match p with
  | Some p => match nth_error (frames h) p with Some f => first_child f | None => None end
  | None => match frames h with [] => None | _ => Some 0 end
  end.
Definition valid (h : history) (p : option nat) : Prop := match p with None => True | Some p => p < length (frames h) end.

Record inv (h : history) : Prop := {
  i_par : forall i f p, nth_error (frames h) i = Some f -> parent f = Some p -> p < i;
  i_name : forall i, i < length (frames h) -> exists s, get_name h i = Ok s;
  i_seg : forall p, valid h p -> seg (frames h) (first_of h p) (children (frames h) p);
  i_last : forall p f, nth_error (frames h) p = Some f -> last_child f = last_opt (children (frames h) (Some p));
  i_root : frames h <> [] -> last_root h = last_opt (children (frames h) None);
  i_inj : forall i j fi fj s, nth_error (frames h) i = Some fi -> nth_error (frames h) j = Some fj ->
    parent fi = parent fj -> get_name h i = Ok s -> get_name h j = Ok s -> i = j }.

Lemma inv_new junk1 junk2 : inv (History [] junk1 junk2 []).
Proof.
  constructor; cbn [frames names last_root].
  - intros [|i] f p E; discriminate.
  - intros i H. cbn in H. lia.
  - intros [p|] H; [cbn in H; lia|reflexivity].
  - intros [|p] f E; discriminate.
  - congruence.
  - intros [|i] j fi fj s E; discriminate.
Qed.

(** Updating counts changes no link. *)
Definition relinks (f g : frame) : Prop :=
  parent f = parent g /\ first_child f = first_child g /\ last_child f = last_child g /\ next_sibling f = next_sibling g /\ name_ptr f = name_ptr g.
Definition same_links (a b : list frame) : Prop :=
  length a = length b /\ forall i f g, nth_error a i = Some f -> nth_error b i = Some g -> relinks f g.
Lemma same_links_counts fs i f st tot c : nth_error fs i = Some f -> same_links (list_set fs i (set_counts f st tot c)) fs.
Proof.
  intros E. split; [apply list_set_length|]. intros j a b Ea Eb. destruct (Nat.eq_dec i j) as [->|Hn].
  - rewrite list_set_nth_eq in Ea by (apply lt_nth in E; exact E). injection Ea as <-. rewrite E in Eb. injection Eb as <-. repeat split.
  - rewrite list_set_nth_ne in Ea by exact Hn. rewrite Ea in Eb. injection Eb as <-. repeat split.
Qed.
Lemma same_links_get a b i f : same_links a b -> nth_error a i = Some f -> exists g, nth_error b i = Some g /\ relinks f g.
Proof.
  intros [L H] E. assert (Hi : i < length b) by (apply lt_nth in E; lia). destruct (nth_lt b i Hi) as (g & Eg). eauto.
Qed.
Lemma same_links_sym a b : same_links a b -> same_links b a.
Proof. intros [L H]. split; [auto|]. intros i f g Ef Eg. destruct (H i g f Eg Ef) as (? & ? & ? & ? & ?). repeat split; auto. Qed.
Lemma same_links_children a b p : same_links a b -> children a p = children b p.
Proof.
  intros [L H]. unfold children. rewrite L. apply filter_ext_in. intros i Hi. apply in_seq in Hi. unfold is_child.
  destruct (nth_lt a i) as (f & Ef); [lia|]. destruct (nth_lt b i) as (g & Eg); [lia|]. rewrite Ef, Eg.
  destruct (H i f g Ef Eg) as (-> & _). reflexivity.
Qed.
Lemma same_links_name h h' i : same_links (frames h') (frames h) -> names h' = names h -> get_name h' i = get_name h i.
Proof.
  intros SL EN. unfold get_name, vget. rewrite EN. destruct (nth_error (frames h') i) as [f|] eqn:E.
  - destruct (same_links_get _ _ _ _ SL E) as (g & -> & _ & _ & _ & _ & R5). cbn. rewrite R5. reflexivity.
  - destruct SL as [L _]. apply nth_error_None in E. rewrite L in E. apply nth_error_None in E. rewrite E. reflexivity.
Qed.
Lemma inv_relink h h' : same_links (frames h') (frames h) -> names h' = names h -> last_root h' = last_root h -> inv h -> inv h'.
Proof.
  intros SL EN ER I. constructor.
  - intros i f p E EP. destruct (same_links_get _ _ _ _ SL E) as (g & Eg & R1 & _). rewrite R1 in EP. eapply i_par; eauto.
  - intros i Hi. rewrite (same_links_name _ _ _ SL EN). apply i_name; [exact I|]. destruct SL as [L _]. lia.
  - intros p Hp. rewrite (same_links_children _ _ _ SL).
    assert (Hp' : valid h p) by (destruct p; [destruct SL as [L _]; cbn in *; lia|exact Logic.I]).
    assert (Ef : first_of h' p = first_of h p).
    { destruct p as [p|]; cbn [first_of].
      - cbn in Hp. destruct (nth_lt _ _ Hp) as (f & E). rewrite E. destruct (same_links_get _ _ _ _ SL E) as (g & -> & _ & R2 & _). exact R2.
      - destruct SL as [L _]. destruct (frames h'), (frames h); try reflexivity; discriminate. }
    rewrite Ef. apply (seg_frame (frames h)); [|apply i_seg; assumption]. intros x f Hx E.
    destruct (same_links_get _ _ _ _ (same_links_sym _ _ SL) E) as (g & Eg & _ & _ & _ & R4 & _). eauto.
  - intros p f E. destruct (same_links_get _ _ _ _ SL E) as (g & Eg & _ & _ & R3 & _). rewrite R3, (same_links_children _ _ _ SL). eapply i_last; eauto.
  - intros H. rewrite ER, (same_links_children _ _ _ SL). apply i_root; [exact I|]. destruct SL as [L _]. intros E. rewrite E in L.
    destruct (frames h'); [congruence|discriminate].
  - intros i j fi fj s E1 E2 EP N1 N2. rewrite (same_links_name _ _ _ SL EN) in N1. rewrite (same_links_name _ _ _ SL EN) in N2.
    destruct (same_links_get _ _ _ _ SL E1) as (gi & G1 & P1 & _). destruct (same_links_get _ _ _ _ SL E2) as (gj & G2 & P2 & _).
    apply (i_inj h I i j gi gj s G1 G2); [congruence|exact N1|exact N2].
Qed.

(** * Finding *)
Lemma find_sibling_spec h ok name : inv h -> forall l fuel i, length l <= fuel -> seg (frames h) i l ->
  (forall x f, In x l -> nth_error (frames h) x = Some f -> ok f = true) ->
  (exists x, In x l /\ get_name h x = Ok name /\ find_sibling fuel h ok i name = Ok (Some x)) \/
  (find_sibling fuel h ok i name = Ok None /\ forall x, In x l -> get_name h x <> Ok name).
Proof.
  intros I l. induction l as [|x t IH]; intros fuel i Hf S Hok.
  - cbn in S. subst. right. split; [destruct fuel; reflexivity|]. intros x [].
  - destruct S as (-> & f & Ef & S). destruct fuel as [|fuel]; [cbn in Hf; lia|]. cbn [find_sibling].
    unfold vget. rewrite Ef. cbn [bind]. destruct (i_name h I x) as (s & Es); [apply lt_nth in Ef; exact Ef|]. rewrite Es. cbn [bind].
    rewrite (Hok x f (or_introl eq_refl) Ef). cbn [andb]. destruct (strcmp0 s name) eqn:EC.
    + apply strcmp0_spec in EC. subst s. left. exists x. split; [left; reflexivity|]. auto.
    + assert (Hne : s <> name) by (intros ->; assert (strcmp0 name name = true) by (apply strcmp0_spec; reflexivity); congruence).
      destruct (IH fuel (next_sibling f)) as [(y & Hy & Ey & F)|(F & H)].
      * cbn in Hf. lia.
      * exact S.
      * intros y g Hy. apply Hok. right. exact Hy.
      * left. exists y. split; [right; exact Hy|auto].
      * right. split; [exact F|]. intros y [<-|Hy]; [congruence|auto].
Qed.

Lemma children_length fs p : length (children fs p) <= length fs.
Proof. transitivity (length (seq 0 (length fs))); [|rewrite seq_length; lia]. apply (NoDup_incl_length (children_NoDup fs p)). apply incl_filter. Qed.

Lemma find_child_spec h p name : inv h -> valid h p ->
  (exists x f, nth_error (frames h) x = Some f /\ parent f = p /\ get_name h x = Ok name /\ find_child_of h p name = Ok (Some x)) \/
  (find_child_of h p name = Ok None /\ forall x f, nth_error (frames h) x = Some f -> parent f = p -> get_name h x <> Ok name).
Proof.
  intros I Hp. pose proof (i_seg h I p Hp) as S. pose proof (children_length (frames h) p) as L.
  assert (G : forall ok r, (forall x f, In x (children (frames h) p) -> nth_error (frames h) x = Some f -> ok f = true) ->
    find_sibling (length (frames h)) h ok (first_of h p) name = r ->
    (exists x f, nth_error (frames h) x = Some f /\ parent f = p /\ get_name h x = Ok name /\ r = Ok (Some x)) \/
    (r = Ok None /\ forall x f, nth_error (frames h) x = Some f -> parent f = p -> get_name h x <> Ok name)).
  { intros ok r Hok <-. destruct (find_sibling_spec h ok name I _ _ _ L S Hok) as [(x & Hx & Ex & F)|(F & H)].
    - left. apply in_children in Hx as (f & Ef & Ep). exists x, f. auto.
    - right. split; [exact F|]. intros x f Ef Ep. apply H. apply in_children. eauto. }
  destruct p as [p|]; cbn [find_child_of].
  - cbn in Hp. destruct (nth_lt _ _ Hp) as (f & Ef). unfold vget. rewrite Ef. cbn [bind].
    apply (G (fun _ => true)); [reflexivity|]. cbn [first_of]. rewrite Ef. reflexivity.
  - unfold find_root. destruct (frames h) as [|f0 fs] eqn:EF.
    + right. split; [reflexivity|]. intros [|x] f E; discriminate.
    + apply (G (fun f => match parent f with None => true | Some _ => false end)); [|cbn [first_of]; rewrite EF; reflexivity].
      intros x f Hx Ex. apply in_children in Hx as (g & Eg & Ep). rewrite Eg in Ex. injection Ex as <-. rewrite Ep. reflexivity.
Qed.

(** * Creating *)
(** What creation does to the links, in terms of lookups. *)
Definition created (h h' : history) (p : option nat) (name : list Z) : Prop :=
  let n := length (frames h) in
  length (frames h') = S n /\ names h' = names h ++ name ++ [0%Z] /\ current_frame h' = current_frame h /\
  nth_error (frames h') n = Some (Frame p None None None (length (names h)) 0 0 0) /\
  last_root h' = (match p with None => Some n | Some _ => last_root h end) /\
  forall i f, nth_error (frames h) i = Some f -> exists f', nth_error (frames h') i = Some f' /\
    parent f' = parent f /\ name_ptr f' = name_ptr f /\ start_time f' = start_time f /\ total_runtime f' = total_runtime f /\ number_of_calls f' = number_of_calls f /\
    next_sibling f' = (if opt_eqb (last_opt (children (frames h) p)) (Some i) then Some n else next_sibling f) /\
    first_child f' = (if opt_eqb p (Some i) then match first_child f with Some c => Some c | None => Some n end else first_child f) /\
    last_child f' = (if opt_eqb p (Some i) then Some n else last_child f).

Lemma last_opt_In l x : last_opt l = Some x -> In x l.
Proof. destruct (snoc_cases l) as [->|(m & y & ->)]; [discriminate|]. rewrite last_opt_snoc. intros E. injection E as ->. apply in_or_app. right. left. reflexivity. Qed.

Lemma opt_eqb_ne a i : a <> Some i -> opt_eqb a (Some i) = false.
Proof. intros H. destruct (opt_eqb a (Some i)) eqn:E; [|reflexivity]. apply opt_eqb_spec in E. contradiction. Qed.
Lemma opt_eqb_same i : opt_eqb (Some i) (Some i) = true.
Proof. apply opt_eqb_spec. reflexivity. Qed.

Lemma seg_first_last h p : inv h -> valid h p -> (first_of h p = None <-> last_opt (children (frames h) p) = None).
Proof.
  intros I Hp. pose proof (i_seg h I p Hp) as S. destruct (children (frames h) p) as [|x t] eqn:E.
  - cbn in S. rewrite S. split; reflexivity.
  - destruct S as (-> & _). split; [discriminate|]. destruct (snoc_cases (x :: t)) as [H|(m & y & H)]; [discriminate|].
    rewrite H, last_opt_snoc. discriminate.
Qed.

Lemma create_created h p name : inv h -> valid h p -> exists h', create_child_of h p name = Ok (h', length (frames h)) /\ created h h' p name.
Proof.
  intros I Hp. set (n := length (frames h)).
  destruct p as [p|].
  - cbn in Hp. destruct (nth_lt _ _ Hp) as (pf & Epf). cbn [create_child_of save]. fold n.
    set (fs0 := frames h ++ _).
    assert (G0 : forall i f, nth_error (frames h) i = Some f -> nth_error fs0 i = Some f) by (intros i f E; unfold fs0; rewrite nth_error_app1 by (apply lt_nth in E; exact E); exact E).
    assert (L0 : length fs0 = S n) by (unfold fs0; rewrite app_length; cbn; fold n; lia).
    assert (N0 : nth_error fs0 n = Some (Frame (Some p) None None None (length (names h)) 0 0 0)) by (unfold fs0; rewrite nth_error_app2 by (fold n; lia); fold n; rewrite Nat.sub_diag; reflexivity).
    unfold vget. rewrite (G0 _ _ Epf). cbn [bind]. pose proof (i_last h I p pf Epf) as EL. pose proof (seg_first_last h (Some p) I Hp) as FL.
    cbn [first_of] in FL. rewrite Epf in FL. rewrite <- EL in FL.
    destruct (last_child pf) as [old|] eqn:Eold.
    + assert (Hold : In old (children (frames h) (Some p))) by (apply last_opt_In; auto).
      apply in_children in Hold as (of & Eof & Pof). assert (Hlt : p < old) by (eapply i_par; eauto).
      rewrite (G0 _ _ Eof). cbn [bind]. rewrite vset_lt by (rewrite L0; apply lt_nth in Eof; fold n in Eof; lia). cbn [bind].
      rewrite list_set_nth_ne by lia. rewrite (G0 _ _ Epf). cbn [bind].
      rewrite vset_lt by (rewrite list_set_length, L0; fold n in Hp; lia). cbn [bind].
      eexists. split; [reflexivity|]. unfold created. cbn [frames names current_frame last_root]. fold n.
      rewrite !list_set_length, L0. repeat split.
      * rewrite list_set_nth_ne by (fold n in Hp; lia). rewrite list_set_nth_ne by (apply lt_nth in Eof; fold n in Eof; lia). exact N0.
      * intros i f E. rewrite <- EL. destruct (Nat.eq_dec i p) as [->|Hip].
        { rewrite list_set_nth_eq by (rewrite list_set_length, L0; fold n in Hp; lia). rewrite Epf in E. injection E as <-.
          eexists. split; [reflexivity|]. rewrite !opt_eqb_same, (opt_eqb_ne _ p) by (intros X; injection X as ->; lia).
          cbn. repeat split. destruct (first_child pf) eqn:Efc; [reflexivity|]. destruct FL as [FL _]. specialize (FL eq_refl). discriminate. }
        rewrite list_set_nth_ne by auto. rewrite (opt_eqb_ne (Some p) i) by congruence. destruct (Nat.eq_dec i old) as [->|Hio].
        { rewrite list_set_nth_eq by (rewrite L0; apply lt_nth in Eof; fold n in Eof; lia). rewrite Eof in E. injection E as <-.
          rewrite opt_eqb_same. eexists. split; [reflexivity|]. repeat split. }
        rewrite list_set_nth_ne by auto. rewrite (opt_eqb_ne _ i) by congruence. exists f. rewrite (G0 _ _ E). repeat split.
    + rewrite vset_lt by (rewrite L0; fold n in Hp; lia). cbn [bind].
      rewrite list_set_nth_eq by (rewrite L0; fold n in Hp; lia). cbn [bind].
      rewrite vset_lt by (rewrite list_set_length, L0; fold n in Hp; lia). cbn [bind].
      eexists. split; [reflexivity|]. unfold created. cbn [frames names current_frame last_root]. fold n.
      rewrite !list_set_length, L0. repeat split.
      * rewrite !list_set_nth_ne by (fold n in Hp; lia). exact N0.
      * intros i f E. rewrite <- EL. destruct (Nat.eq_dec i p) as [->|Hip].
        { rewrite list_set_nth_eq by (rewrite list_set_length, L0; fold n in Hp; lia). rewrite Epf in E. injection E as <-.
          eexists. split; [reflexivity|]. rewrite !opt_eqb_same. cbn [opt_eqb]. destruct FL as [_ FL]. rewrite (FL eq_refl). repeat split. }
        rewrite !list_set_nth_ne by auto. rewrite (opt_eqb_ne (Some p) i) by congruence. cbn [opt_eqb]. exists f. rewrite (G0 _ _ E). repeat split.
  - cbn [create_child_of]. unfold create_root. cbn [save]. fold n. set (fs0 := frames h ++ _).
    assert (G0 : forall i f, nth_error (frames h) i = Some f -> nth_error fs0 i = Some f) by (intros i f E; unfold fs0; rewrite nth_error_app1 by (apply lt_nth in E; exact E); exact E).
    assert (L0 : length fs0 = S n) by (unfold fs0; rewrite app_length; cbn; fold n; lia).
    assert (N0 : nth_error fs0 n = Some (Frame None None None None (length (names h)) 0 0 0)) by (unfold fs0; rewrite nth_error_app2 by (fold n; lia); fold n; rewrite Nat.sub_diag; reflexivity).
    destruct (Nat.eqb_spec n 0) as [H0|H0].
    + cbn [bind]. eexists. split; [reflexivity|]. unfold created. cbn [frames names current_frame last_root]. fold n. rewrite L0. repeat split; auto.
      intros i f E. apply lt_nth in E. fold n in E. lia.
    + assert (HNE : frames h <> []) by (intros E; apply H0; unfold n; rewrite E; reflexivity).
      pose proof (i_root h I HNE) as ER. destruct (nth_lt (frames h) 0) as (f0 & Ef0); [fold n; lia|].
      assert (H0c : In 0 (children (frames h) None)).
      { apply in_children. exists f0. split; [exact Ef0|]. destruct (parent f0) as [q|] eqn:Eq; [|reflexivity].
        assert (q < 0) by (apply (i_par h I 0 f0 q); [exact Ef0|exact Eq]). lia. }
      destruct (snoc_cases (children (frames h) None)) as [Hc|(m & r & Hc)]; [rewrite Hc in H0c; destruct H0c|].
      rewrite Hc, last_opt_snoc in ER. rewrite ER. assert (Hr : In r (children (frames h) None)) by (rewrite Hc; apply in_or_app; right; left; reflexivity).
      apply in_children in Hr as (rf & Erf & Prf). unfold vget. rewrite (G0 _ _ Erf). cbn [bind].
      rewrite vset_lt by (rewrite L0; apply lt_nth in Erf; fold n in Erf; lia). cbn [bind].
      eexists. split; [reflexivity|]. unfold created. cbn [frames names current_frame last_root]. fold n. rewrite list_set_length, L0. repeat split.
      * rewrite list_set_nth_ne by (apply lt_nth in Erf; fold n in Erf; lia). exact N0.
      * intros i f E. rewrite Hc, last_opt_snoc. cbn [opt_eqb]. destruct (Nat.eq_dec i r) as [->|Hir].
        { rewrite list_set_nth_eq by (rewrite L0; apply lt_nth in Erf; fold n in Erf; lia). rewrite Erf in E. injection E as <-.
          rewrite Nat.eqb_refl. eexists. split; [reflexivity|]. repeat split. }
        rewrite list_set_nth_ne by auto. destruct (Nat.eqb_spec r i) as [|_]; [congruence|]. exists f. rewrite (G0 _ _ E). repeat split.
Qed.

Lemma created_children h h' p name q : created h h' p name ->
  children (frames h') q = children (frames h) q ++ (if opt_eqb p q then [length (frames h)] else []).
Proof.
  intros (L & _ & _ & N & _ & O). unfold children. rewrite L, seq_S, filter_app. cbn [plus filter]. f_equal.
  - apply filter_ext_in. intros i Hi. apply in_seq in Hi. destruct (nth_lt (frames h) i) as (f & Ef); [lia|].
    destruct (O i f Ef) as (f' & Ef' & EP & _). unfold is_child. rewrite Ef, Ef', EP. reflexivity.
  - unfold is_child at 1. rewrite N. cbn [parent]. destruct (opt_eqb p q); reflexivity.
Qed.

Lemma created_name_old h h' p name i s : created h h' p name -> get_name h i = Ok s -> get_name h' i = Ok s.
Proof.
  intros (L & EN & _ & _ & _ & O) E. unfold get_name, vget in *. destruct (nth_error (frames h) i) as [f|] eqn:Ef; [|discriminate].
  destruct (O i f Ef) as (f' & -> & _ & R & _). cbn [bind] in *. rewrite R, EN. apply get_app, E.
Qed.
Lemma created_name_new h h' p name : created h h' p name -> ~ In 0%Z name -> get_name h' (length (frames h)) = Ok name.
Proof.
  intros (L & EN & _ & N & _) Hz. unfold get_name, vget. rewrite N. cbn [bind name_ptr]. rewrite EN. apply get_saved, Hz.
Qed.

Lemma created_inv h h' p name : inv h -> valid h p -> ~ In 0%Z name ->
  (forall x f, nth_error (frames h) x = Some f -> parent f = p -> get_name h x <> Ok name) ->
  created h h' p name -> inv h'.
Proof.
  intros I Hp Hz Hfresh C. pose proof C as (L & EN & _ & N & ER & O). set (n := length (frames h)) in *.
  assert (Cases : forall i f', nth_error (frames h') i = Some f' -> (i < n /\ exists f, nth_error (frames h) i = Some f) \/ i = n).
  { intros i f' E. apply lt_nth in E. rewrite L in E. destruct (Nat.eq_dec i n); [auto|]. left. split; [lia|]. apply nth_lt. unfold n in *. lia. }
  assert (ParN : forall q, parent (Frame p None None None (length (names h)) 0 0 0) = Some q -> q < n).
  { cbn. intros q E. subst p. exact Hp. }
  constructor.
  - intros i f' q E EP. destruct (Cases i f' E) as [(Hi & f & Ef)| ->].
    + destruct (O i f Ef) as (g & Eg & Pg & _). rewrite Eg in E. injection E as ->. eapply i_par; [exact I|exact Ef|congruence].
    + rewrite N in E. injection E as <-. apply ParN, EP.
  - intros i Hi. rewrite L in Hi. destruct (Nat.eq_dec i n) as [->|Hne].
    + exists name. apply (created_name_new h h' p name C Hz).
    + destruct (i_name h I i) as (s & Es); [unfold n in *; lia|]. exists s. apply (created_name_old h h' p name i s C Es).
  - intros q Hq. rewrite (created_children h h' p name q C). fold n.
    assert (HqC : valid h q \/ q = Some n) by (destruct q as [q|]; [cbn in *; rewrite L in Hq; destruct (Nat.eq_dec q n); [right; congruence|left; unfold n in *; lia]|left; exact Logic.I]).
    destruct HqC as [Hq'| ->].
    + pose proof (i_seg h I q Hq') as S. destruct (opt_eqb p q) eqn:EPQ.
      * apply opt_eqb_spec in EPQ. subst q.
        destruct (snoc_cases (children (frames h) p)) as [Hc|(m & x & Hc)].
        -- rewrite Hc in *. cbn [app seg] in *. split.
           ++ destruct p as [p|]; cbn [first_of] in *.
              ** destruct (nth_lt _ _ Hp) as (f & Ef). rewrite Ef in S. destruct (O p f Ef) as (f' & -> & _ & _ & _ & _ & _ & _ & F & _).
                 rewrite F, opt_eqb_same, S. reflexivity.
              ** destruct (frames h) as [|? ?] eqn:EF; [|discriminate]. cbn in L. destruct (frames h') as [|? ?]; [discriminate|reflexivity].
           ++ eexists. split; [exact N|reflexivity].
        -- rewrite Hc in *. rewrite <- app_assoc. cbn [app].
           assert (Ef0 : first_of h' p = first_of h p).
           { destruct p as [p|]; cbn [first_of] in *.
             - destruct (nth_lt _ _ Hp) as (f & Ef). rewrite Ef in *. destruct (O p f Ef) as (f' & -> & _ & _ & _ & _ & _ & _ & F & _).
               rewrite F, opt_eqb_same. destruct (first_child f) eqn:Efc; [reflexivity|]. destruct m; destruct S as (S & _); discriminate.
             - destruct (frames h) as [|? ?] eqn:EF; [destruct m; destruct S as (S & _); discriminate|].
               destruct (frames h') as [|? ?]; [discriminate|reflexivity]. }
           rewrite Ef0. apply (seg_snoc (frames h)); [exact S|rewrite <- Hc; apply children_NoDup| | |].
           ++ intros y f Hy Ef. destruct (O y f Ef) as (f' & Ef' & _ & _ & _ & _ & _ & NS & _). exists f'. split; [exact Ef'|].
              rewrite NS, last_opt_snoc, opt_eqb_ne; [reflexivity|]. intros X. injection X as ->.
              pose proof (children_NoDup (frames h) p) as ND. rewrite Hc in ND. apply NoDup_remove_2 in ND. rewrite app_nil_r in ND. contradiction.
           ++ assert (Hx : In x (children (frames h) p)) by (rewrite Hc; apply in_or_app; right; left; reflexivity).
              apply in_children in Hx as (f & Ef & _). destruct (O x f Ef) as (f' & Ef' & _ & _ & _ & _ & _ & NS & _). exists f'. split; [exact Ef'|].
              rewrite NS, last_opt_snoc, opt_eqb_same. reflexivity.
           ++ eexists. split; [exact N|reflexivity].
      * rewrite app_nil_r.
        assert (PQ : p <> q) by (intros ->; rewrite (proj2 (opt_eqb_spec q q) eq_refl) in EPQ; discriminate).
        assert (Ef0 : first_of h' q = first_of h q).
        { destruct q as [q|]; cbn [first_of] in *.
          - destruct (nth_lt _ _ Hq') as (f & Ef). rewrite Ef. destruct (O q f Ef) as (f' & -> & _ & _ & _ & _ & _ & _ & F & _).
            rewrite F, opt_eqb_ne by exact PQ. reflexivity.
          - destruct p as [p|]; [|congruence]. cbn in Hp. destruct (frames h) as [|? ?]; [cbn in Hp; lia|]. destruct (frames h') as [|? ?]; [discriminate|reflexivity]. }
        rewrite Ef0. apply (seg_frame (frames h)); [|exact S]. intros x f Hx Ef. destruct (O x f Ef) as (f' & Ef' & _ & _ & _ & _ & _ & NS & _).
        exists f'. split; [exact Ef'|]. rewrite NS, opt_eqb_ne; [reflexivity|]. intros X. apply last_opt_In in X.
        apply in_children in X as (g & Eg & Pg). apply in_children in Hx as (g' & Eg' & Pg'). congruence.
    + assert (children (frames h) (Some n) = []) as ->.
      { destruct (children (frames h) (Some n)) as [|x t] eqn:E; [reflexivity|]. assert (Hx : In x (children (frames h) (Some n))) by (rewrite E; left; reflexivity).
        apply in_children in Hx as (f & Ef & Pf). pose proof (i_par h I x f n Ef Pf). apply lt_nth in Ef. fold n in Ef. lia. }
      rewrite opt_eqb_ne by (intros ->; cbn in Hp; unfold n in Hp; lia). cbn [app seg first_of]. rewrite N. reflexivity.
  - intros i f' E. rewrite (created_children h h' p name _ C). fold n. destruct (Cases i f' E) as [(Hi & f & Ef)| ->].
    + destruct (O i f Ef) as (g & Eg & _ & _ & _ & _ & _ & _ & _ & LC). rewrite Eg in E. injection E as ->. rewrite LC.
      destruct (opt_eqb p (Some i)); [rewrite last_opt_snoc; reflexivity|]. rewrite app_nil_r. eapply i_last; eauto.
    + rewrite N in E. injection E as <-. rewrite opt_eqb_ne by (intros ->; cbn in Hp; unfold n in Hp; lia). rewrite app_nil_r.
      assert (children (frames h) (Some n) = []) as ->; [|reflexivity].
      destruct (children (frames h) (Some n)) as [|x t] eqn:EC; [reflexivity|]. assert (Hx : In x (children (frames h) (Some n))) by (rewrite EC; left; reflexivity).
      apply in_children in Hx as (f & Ef & Pf). pose proof (i_par h I x f n Ef Pf). apply lt_nth in Ef. fold n in Ef. lia.
  - intros _. rewrite (created_children h h' p name _ C), ER. fold n. destruct p as [p|]; cbn [opt_eqb].
    + rewrite app_nil_r. apply i_root; [exact I|]. intros E. cbn in Hp. rewrite E in Hp. cbn in Hp. lia.
    + rewrite last_opt_snoc. reflexivity.
  - assert (Old : forall i f' s, nth_error (frames h') i = Some f' -> i < n -> get_name h' i = Ok s ->
      exists f, nth_error (frames h) i = Some f /\ parent f = parent f' /\ get_name h i = Ok s).
    { intros i f' s E Hi G. destruct (nth_lt (frames h) i) as (f & Ef); [unfold n in Hi; lia|]. exists f. split; [exact Ef|].
      destruct (O i f Ef) as (g & Eg & Pg & _). split; [congruence|]. destruct (i_name h I i) as (s' & Es); [unfold n in Hi; lia|].
      pose proof (created_name_old h h' p name i s' C Es). congruence. }
    intros i j fi fj s E1 E2 EP G1 G2.
    destruct (Cases i fi E1) as [(Hi & _)|Hi]; destruct (Cases j fj E2) as [(Hj & _)|Hj]; [| | |congruence].
    + destruct (Old i fi s E1 Hi G1) as (a & Ea & Pa & Na). destruct (Old j fj s E2 Hj G2) as (b & Eb & Pb & Nb).
      apply (i_inj h I i j a b s Ea Eb); congruence.
    + exfalso. subst j. rewrite N in E2. injection E2 as <-. pose proof (created_name_new h h' p name C Hz) as GN. fold n in GN.
      destruct (Old i fi s E1 Hi G1) as (a & Ea & Pa & Na). cbn in EP. apply (Hfresh i a Ea); congruence.
    + exfalso. subst i. rewrite N in E1. injection E1 as <-. pose proof (created_name_new h h' p name C Hz) as GN. fold n in GN.
      destruct (Old j fj s E2 Hj G2) as (a & Ea & Pa & Na). cbn in EP. apply (Hfresh j a Ea); congruence.
Qed.

(** * Find or create, in terms of what a frame says *)
Definition says (h : history) (i : nat) (p : option nat) (name : list Z) (st tot : Z) (c : nat) : Prop :=
  exists f, nth_error (frames h) i = Some f /\ get_name h i = Ok name /\ parent f = p /\ start_time f = st /\ total_runtime f = tot /\ number_of_calls f = c.

Lemma find_or_create_spec h p name : inv h -> valid h p -> ~ In 0%Z name ->
  exists h' i, find_or_create_child_of h p name = Ok (h', i) /\ inv h' /\ current_frame h' = current_frame h /\ i < length (frames h') /\
  (forall j q s st tot c, says h j q s st tot c -> says h' j q s st tot c) /\
  ((h' = h /\ exists st tot c, says h i p name st tot c) \/
   (i = length (frames h) /\ length (frames h') = S i /\ says h' i p name 0 0 0 /\
    forall j f, nth_error (frames h) j = Some f -> parent f = p -> get_name h j <> Ok name)).
Proof.
  intros I Hp Hz. unfold find_or_create_child_of. destruct (find_child_spec h p name I Hp) as [(x & f & Ef & Pf & Nf & ->)|(-> & Hfresh)]; cbn [bind].
  - exists h, x. split; [reflexivity|]. split; [exact I|]. split; [reflexivity|]. split; [apply lt_nth in Ef; exact Ef|]. split; [auto|]. left. split; [reflexivity|]. eexists _, _, _, f. repeat split; auto.
  - destruct (create_created h p name I Hp) as (h' & -> & C). exists h', (length (frames h)). split; [reflexivity|].
    split; [eapply created_inv; eauto|]. pose proof C as (L & EN & EC & N & ER & O). split; [exact EC|]. split; [lia|].
    split.
    + intros j q s st tot c (f & Ef & Nf & <- & <- & <- & <-). destruct (O j f Ef) as (f' & Ef' & P1 & _ & P2 & P3 & P4 & _).
      exists f'. split; [exact Ef'|]. split; [eapply created_name_old; eauto|]. auto.
    + right. split; [reflexivity|]. split; [exact L|]. split; [|exact Hfresh]. eexists. split; [exact N|].
      split; [eapply created_name_new; eauto|]. repeat split.
Qed.

(** * Paths *)
Lemma path_says h i name p q st tot c : says h i p name st tot c -> frame_path h p q -> frame_path h (Some i) (name :: q).
Proof. intros (f & Ef & Nf & <- & _) H. econstructor; eauto. Qed.

Lemma path_det h : forall i q, frame_path h i q -> forall q', frame_path h i q' -> q = q'.
Proof.
  intros i q H. induction H as [|i f name p Ef En H IH]; intros q' H'; inversion H' as [|j g name' p' Eg En' Hg]; subst; [reflexivity|].
  rewrite Ef in Eg. injection Eg as <-. f_equal; [congruence|auto].
Qed.
Lemma path_inj h : inv h -> forall i q, frame_path h i q -> forall j, frame_path h j q -> i = j.
Proof.
  intros I i q H. induction H as [|i f name p Ef En H IH]; intros j H'; inversion H' as [|j' g name' p' Eg En' Hg]; subst; [reflexivity|].
  f_equal. apply (i_inj h I i j' f g name Ef Eg); auto.
Qed.
Lemma path_total h : inv h -> forall i, i < length (frames h) -> exists q, frame_path h (Some i) q.
Proof.
  intros I i. induction i as [i IH] using lt_wf_ind. intros Hi. destruct (nth_lt _ _ Hi) as (f & Ef). destruct (i_name h I i Hi) as (s & Es).
  destruct (parent f) as [p|] eqn:EP.
  - pose proof (i_par h I i f p Ef EP). destruct (IH p) as (q & Hq); [lia|lia|]. exists (s :: q). econstructor; eauto. rewrite EP. exact Hq.
  - exists [s]. econstructor; eauto. rewrite EP. constructor.
Qed.
Lemma path_ext h h' : (forall j q s st tot c, says h j q s st tot c -> exists st' tot' c', says h' j q s st' tot' c') ->
  forall i q, frame_path h i q -> frame_path h' i q.
Proof.
  intros H i q P. induction P as [|i f name p Ef En P IH]; [constructor|].
  destruct (H i (parent f) name (start_time f) (total_runtime f) (number_of_calls f)) as (st & tot & c & HS); [exists f; repeat split; auto|].
  eapply path_says; eauto.
Qed.
Lemma path_valid h i q : frame_path h i q -> valid h i.
Proof. intros H. inversion H; subst; [exact Logic.I|]. cbn. eapply lt_nth; eauto. Qed.

(** Setting counts. *)
Lemma says_set h i f st tot c cur : nth_error (frames h) i = Some f ->
  let h' := History (list_set (frames h) i (set_counts f st tot c)) cur (last_root h) (names h) in
  (inv h -> inv h') /\ length (frames h') = length (frames h) /\
  (forall j q s st' tot' c', says h' j q s st' tot' c' <->
    (j = i /\ (exists st0 tot0 c0, says h i q s st0 tot0 c0) /\ st' = st /\ tot' = tot /\ c' = c) \/ (j <> i /\ says h j q s st' tot' c')).
Proof.
  intros Ef h'. pose proof (same_links_counts (frames h) i f st tot c Ef) as SL.
  assert (NM : forall j, get_name h' j = get_name h j) by (intros j; apply same_links_name; [exact SL|reflexivity]).
  split; [apply inv_relink; [exact SL|reflexivity|reflexivity]|]. split; [apply list_set_length|].
  intros j q s st' tot' c'. split.
  - intros (g & Eg & Ng & <- & <- & <- & <-). cbn [frames h'] in Eg. rewrite NM in Ng. destruct (Nat.eq_dec j i) as [->|Hn]; [left|right].
    + rewrite list_set_nth_eq in Eg by (apply lt_nth in Ef; exact Ef). injection Eg as <-. split; [reflexivity|]. split; [|auto].
      eexists _, _, _, f. repeat split; auto.
    + rewrite list_set_nth_ne in Eg by auto. split; [exact Hn|]. exists g. repeat split; auto.
  - intros [(-> & (st0 & tot0 & c0 & g & Eg & Ng & <- & _) & -> & -> & ->)|(Hn & g & Eg & Ng & E)].
    + eexists. cbn [frames h']. rewrite list_set_nth_eq by (apply lt_nth in Ef; exact Ef). split; [reflexivity|]. rewrite NM. split; [exact Ng|].
      rewrite Ef in Eg. injection Eg as <-. repeat split.
    + exists g. cbn [frames h']. rewrite list_set_nth_ne by auto. rewrite NM. tauto.
Qed.
Lemma says_get h i p s st tot c : says h i p s st tot c -> exists f, nth_error (frames h) i = Some f /\ parent f = p /\ start_time f = st /\ total_runtime f = tot /\ number_of_calls f = c.
Proof. intros (f & Ef & _ & H). eauto. Qed.
Lemma says_det h i p s st tot c p' s' st' tot' c' : says h i p s st tot c -> says h i p' s' st' tot' c' -> p = p' /\ s = s' /\ st = st' /\ tot = tot' /\ c = c'.
Proof. intros (f & Ef & N & <- & <- & <- & <-) (g & Eg & N' & <- & <- & <- & <-). rewrite Ef in Eg. injection Eg as <-. repeat split; congruence. Qed.
Lemma says_path h i p s st tot c : inv h -> says h i p s st tot c -> exists q, frame_path h (Some i) (s :: q) /\ frame_path h p q.
Proof.
  intros I (f & Ef & N & <- & _). destruct (parent f) as [k|] eqn:EP.
  - pose proof (i_par h I i f k Ef EP). destruct (path_total h I k) as (q & Hq); [apply lt_nth in Ef; lia|].
    exists q. split; [|exact Hq]. econstructor; eauto. rewrite EP. exact Hq.
  - exists []. split; [|constructor]. econstructor; eauto. rewrite EP. constructor.
Qed.
Lemma says_ex h i : inv h -> i < length (frames h) -> exists p s st tot c, says h i p s st tot c.
Proof. intros I Hi. destruct (nth_lt _ _ Hi) as (f & Ef). destruct (i_name h I i Hi) as (s & Es). eexists _, _, _, _, _, f. repeat split; eauto. Qed.

(** * The running invariant *)
Record tracks (h : history) (s : story) : Prop := {
  t_inv : inv h;
  t_cur : frame_path h (current_frame h) (map fst (open s));
  t_counts : forall i q p n st tot c, frame_path h (Some i) q -> says h i p n st tot c -> c = times_started s q /\ tot = time_spent s q /\ In q (started s);
  t_has : forall q, In q (started s) -> exists i, frame_path h (Some i) q;
  t_open : forall pre n t0 o i p n' st tot c, open s = pre ++ (n, t0) :: o -> frame_path h (Some i) (n :: map fst o) -> says h i p n' st tot c -> st = t0;
  t_fin : forall q d, In (q, d) (finished s) -> In q (started s) }.

Lemma tracks_new : tracks new_history (Story [] [] []).
Proof.
  constructor; cbn.
  - apply inv_new.
  - constructor.
  - intros i q p n st tot c _ (f & Ef & _). destruct i; discriminate Ef.
  - intros q [].
  - intros [|x pre] n t0 o i p n' st tot c E; discriminate E.
  - intros q d [].
Qed.

Lemma count_snoc_eq s o p fin : count_occ path_dec (started s ++ [p]) p = S (times_started s p) /\ (forall q, q <> p -> times_started (Story o (started s ++ [p]) fin) q = times_started s q).
Proof.
  unfold times_started. cbn [started]. rewrite count_occ_app. cbn [count_occ]. destruct (path_dec p p); [|congruence]. split; [lia|].
  intros q Hq. rewrite count_occ_app. cbn [count_occ]. destruct (path_dec p q); [congruence|lia].
Qed.
Lemma total_app l m : total (l ++ m) = (total l + total m)%Z.
Proof. unfold total. induction l as [|x t IH]; cbn [app fold_right]; lia. Qed.
Lemma spent_snoc o st fin p d q : time_spent (Story o st (fin ++ [(p, d)])) q = (time_spent (Story o st fin) q + if path_dec p q then d else 0)%Z.
Proof.
  unfold time_spent. cbn [finished]. rewrite filter_app, map_app, total_app. cbn [filter fst]. destruct (path_dec p q); cbn [map snd total fold_right]; lia.
Qed.

Lemma spent_none s q : (forall d, ~ In (q, d) (finished s)) -> time_spent s q = 0%Z.
Proof.
  intros H. unfold time_spent. destruct (filter _ (finished s)) as [|[p d] l] eqn:E; [reflexivity|].
  assert (Hin : In (p, d) (filter (fun x => if path_dec (fst x) q then true else false) (finished s))) by (rewrite E; left; reflexivity).
  apply filter_In in Hin as [Hin Hq]. cbn [fst] in Hq. destruct (path_dec p q) as [->|]; [|discriminate]. destruct (H d Hin).
Qed.

Lemma start_step h s name now : tracks h s -> ~ In 0%Z name ->
  exists h', start h name now = Ok h' /\ tracks h' (Story ((name, now) :: open s) (started s ++ [map fst ((name, now) :: open s)]) (finished s)).
Proof.
  intros T Hz. destruct T as [I TC TN TH TO TF]. set (cp := map fst (open s)). set (q0 := name :: cp).
  destruct (find_or_create_spec h (current_frame h) name I (path_valid _ _ _ TC) Hz) as (h1 & i & E & I1 & C1 & Hi & Keep & Case).
  unfold start. rewrite E. cbn [bind].
  destruct (says_ex h1 i I1 Hi) as (p1 & n1 & st1 & tot1 & c1 & S1). pose proof (says_get _ _ _ _ _ _ _ S1) as (f & Ef & _ & _ & Etot & Ec).
  unfold vget. rewrite Ef. cbn [bind]. rewrite vset_lt by exact Hi. cbn [bind].
  eexists. split; [reflexivity|].
  destruct (says_set h1 i f now (total_runtime f) (Datatypes.S (number_of_calls f)) (Some i) Ef) as (I2 & L2 & Says2).
  set (h2 := History _ _ _ _) in *.
  assert (P01 : forall j q, frame_path h j q -> frame_path h1 j q) by (apply path_ext; intros j q n st tot c X; eauto 10).
  assert (P12 : forall j q, frame_path h1 j q -> frame_path h2 j q).
  { apply path_ext. intros j q n st tot c X. destruct (Nat.eq_dec j i) as [->|Hn].
    - eexists _, _, _. apply Says2. left. eauto 10.
    - eexists _, _, _. apply Says2. right. eauto. }
  assert (P21 : forall j q, frame_path h2 j q -> frame_path h1 j q).
  { apply path_ext. intros j q n st tot c X. apply Says2 in X as [(-> & X & _)|(_ & X)]; eauto. }
  assert (Par1 : p1 = current_frame h /\ n1 = name).
  { destruct Case as [(-> & st & tot & c & X)|(-> & _ & X & _)]; destruct (says_det _ _ _ _ _ _ _ _ _ _ _ _ S1 X) as (-> & -> & _); auto. }
  destruct Par1 as [-> ->].
  assert (PI : frame_path h1 (Some i) q0) by (eapply path_says; [exact S1|apply P01, TC]).
  assert (Old : forall j q, frame_path h1 (Some j) q -> j <> i -> frame_path h (Some j) q).
  { intros j q HP Hj. assert (HJ : j < length (frames h)).
    { pose proof (path_valid _ _ _ HP) as V. cbn in V. destruct Case as [(-> & _)|(-> & L & _)]; lia. }
    destruct (path_total h I j HJ) as (q' & HP'). rewrite (path_det _ _ _ HP _ (P01 _ _ HP')). exact HP'. }
  assert (OldS : forall j p n st tot c, says h1 j p n st tot c -> j <> i -> says h j p n st tot c).
  { intros j p n st tot c X Hj. assert (HJ : j < length (frames h)).
    { destruct (says_get _ _ _ _ _ _ _ X) as (g & Eg & _). apply lt_nth in Eg. destruct Case as [(-> & _)|(-> & L & _)]; lia. }
    destruct (says_ex h j I HJ) as (p' & n' & st' & tot' & c' & X'). destruct (says_det _ _ _ _ _ _ _ _ _ _ _ _ X (Keep _ _ _ _ _ _ X')) as (-> & -> & -> & -> & ->). exact X'. }
  cbn [map fst] in *. fold cp q0.
  constructor.
  - apply I2, I1.
  - cbn [open map fst current_frame h2]. fold cp. apply P12, PI.
  - intros j q p n st tot c HP X. apply P21 in HP. apply Says2 in X as [(-> & _ & -> & -> & ->)|(Hj & X)].
    + assert (q = q0) by (eapply path_det; eauto). subst q. destruct (count_snoc_eq s ((name, now) :: open s) q0 (finished s)) as [CE _].
      rewrite Etot, Ec.
      assert (c1 = times_started s q0 /\ tot1 = time_spent s q0) as [-> ->].
      { destruct Case as [(-> & st & tot & c & X)|(-> & _ & X & Fresh)].
        - destruct (TN i q0 _ _ _ _ _ PI S1) as (A & B & _). auto.
        - destruct (says_det _ _ _ _ _ _ _ _ _ _ _ _ S1 X) as (_ & _ & _ & -> & ->).
          assert (Hno : ~ In q0 (started s)).
          { intros Hin. destruct (TH q0 Hin) as (j & Hj). inversion Hj as [|j' g nm pp Eg Eng HPg Ej Eq]; subst.
            apply (Fresh j g Eg); [|congruence]. eapply path_inj; [exact I|exact HPg|exact TC]. }
          split; [symmetry; apply count_occ_not_In, Hno|]. 
          symmetry. apply spent_none. intros d Hd. exact (Hno (TF q0 d Hd)). }
      split; [symmetry; exact CE|]. split; [reflexivity|]. apply in_or_app. right. left. reflexivity.
    + pose proof (Old j q HP Hj) as HP0. pose proof (OldS _ _ _ _ _ _ X Hj) as X0. destruct (TN j q _ _ _ _ _ HP0 X0) as (-> & -> & Hin).
      assert (q <> q0) by (intros ->; apply Hj; assert (Some j = Some i) by (eapply path_inj; eauto); congruence).
      destruct (count_snoc_eq s ((name, now) :: open s) q0 (finished s)) as [_ CN]. split; [symmetry; exact (CN q H)|]. split; [reflexivity|].
      apply in_or_app. left. exact Hin.
  - intros q Hq. apply in_app_or in Hq as [Hq|[<-|[]]].
    + destruct (TH q Hq) as (j & Hj). exists j. apply P12, P01, Hj.
    + exists i. apply P12, PI.
  - intros pre n t0 o j p n' st tot c EO HP X. apply P21 in HP. cbn [open] in EO.
    destruct pre as [|x pre]; cbn [app] in EO; injection EO.
    + intros Eo Et En. subst n t0 o. fold cp q0 in HP. assert (Some j = Some i) by (eapply path_inj; eauto).
      apply Says2 in X as [(_ & _ & -> & _)|(Hj & _)]; congruence.
    + intros EO' _. assert (Hji : j <> i).
      { intros ->. pose proof (path_det _ _ _ HP _ PI) as Q. apply (f_equal (@length _)) in Q. unfold q0, cp in Q. rewrite EO' in Q.
        cbn [length] in Q. rewrite map_app, app_length in Q. cbn [map length] in Q. lia. }
      apply Says2 in X as [(-> & _)|(_ & X)]; [congruence|]. eapply TO; [exact EO'|exact (Old j _ HP Hji)|exact (OldS _ _ _ _ _ _ X Hji)].
  - intros q d Hd. cbn [finished started] in *. apply in_or_app. left. exact (TF q d Hd).
Qed.

Lemma stop_step h s name t0 o now : tracks h s -> open s = (name, t0) :: o ->
  exists h', stop h now = Ok h' /\ tracks h' (Story o (started s) (finished s ++ [(map fst (open s), (now - t0)%Z)])).
Proof.
  intros T EO. destruct T as [I TC TN TH TO TF]. rewrite EO in TC. cbn [map fst] in TC. set (q0 := name :: map fst o) in *.
  unfold stop. inversion TC as [|i f nm p Ef En HP Ei Eq]; subst. unfold vget. rewrite Ef. cbn [bind].
  rewrite vset_lt by (apply lt_nth in Ef; exact Ef). cbn [bind]. eexists. split; [reflexivity|].
  destruct (says_set h i f (start_time f) (total_runtime f + (now - start_time f))%Z (number_of_calls f) (parent f) Ef) as (I2 & L2 & Says2).
  set (h2 := History _ _ _ _) in *. rewrite <- Ei in TC.
  assert (SF : says h i (parent f) name (start_time f) (total_runtime f) (number_of_calls f)) by (exists f; repeat split; auto).
  assert (ES : start_time f = t0) by (eapply (TO [] name t0 o); eauto).
  assert (P12 : forall j q, frame_path h j q -> frame_path h2 j q).
  { apply path_ext. intros j q n st tot c X. destruct (Nat.eq_dec j i) as [->|Hn].
    - eexists _, _, _. apply Says2. left. eauto 10.
    - eexists _, _, _. apply Says2. right. eauto. }
  assert (P21 : forall j q, frame_path h2 j q -> frame_path h j q).
  { apply path_ext. intros j q n st tot c X. apply Says2 in X as [(-> & X & _)|(_ & X)]; eauto. }
  rewrite EO. cbn [map fst]. fold q0.
  constructor.
  - apply I2, I.
  - cbn [open current_frame h2]. apply P12. exact HP.
  - intros j q p n st tot c HPj X. apply P21 in HPj. rewrite spent_snoc. cbn [started].
    replace (times_started (Story o (started s) (finished s ++ [(q0, (now - t0)%Z)])) q) with (times_started s q) by reflexivity.
    replace (time_spent (Story o (started s) (finished s)) q) with (time_spent s q) by reflexivity.
    apply Says2 in X as [(-> & _ & -> & -> & ->)|(Hj & X)].
    + assert (q = q0) by (eapply path_det; eauto). subst q. destruct (TN i q0 _ _ _ _ _ TC SF) as (A & B & D). split; [exact A|]. split; [|exact D].
      rewrite B, ES. destruct (path_dec q0 q0); [lia|congruence].
    + destruct (TN j q _ _ _ _ _ HPj X) as (A & B & D). split; [exact A|]. split; [|exact D]. rewrite B.
      destruct (path_dec q0 q) as [Eqq|]; [|lia]. subst q. assert (Some j = Some i) by (eapply path_inj; eauto). congruence.
  - intros q Hq. destruct (TH q Hq) as (j & Hj). exists j. apply P12, Hj.
  - intros pre n t1 o' j p n' st tot c EOo HPj X. cbn [open] in EOo. apply P21 in HPj.
    apply Says2 in X as [(-> & X & -> & _)|(Hj & X)].
    + exfalso. pose proof (path_det _ _ _ HPj _ TC) as Q. apply (f_equal (@length _)) in Q. unfold q0 in Q. rewrite EOo in Q.
      cbn [length] in Q. rewrite map_app, app_length in Q. cbn [map length] in Q. lia.
    + eapply (TO ((name, t0) :: pre)); [rewrite EO, EOo; reflexivity|exact HPj|exact X].
  - intros q d Hd. cbn [finished started] in *. apply in_app_or in Hd as [Hd|[Hd|[]]]; [exact (TF q d Hd)|].
    injection Hd as <- <-. destruct (TN i q0 _ _ _ _ _ TC SF) as (_ & _ & D). exact D.
Qed.

Lemma run_tracks : forall es h s s', tracks h s -> Forall proper es -> tell_all s es = Some s' ->
  exists h', foldM do_event es h = Ok h' /\ tracks h' s'.
Proof.
  induction es as [|e es IH]; intros h s s' T HP E; cbn [tell_all foldM] in *.
  - injection E as <-. eauto.
  - inversion HP as [|? ? Pe Pes]; subst. destruct e as [name now|now]; cbn [tell do_event proper] in *.
    + destruct (start_step h s name now T Pe) as (h1 & -> & T1). cbn [bind]. eapply IH; eauto.
    + destruct (open s) as [|[name t0] o] eqn:EO; [discriminate|]. destruct (stop_step h s name t0 o now T EO) as (h1 & -> & T1). cbn [bind].
      eapply IH; [exact T1|exact Pes|]. rewrite EO. exact E.
Qed.

(** A stop with nothing open. *)
Lemma run_excess : forall es h s, tracks h s -> Forall proper es -> tell_all s es = None -> foldM do_event es h = UB.
Proof.
  induction es as [|e es IH]; intros h s T HP E; cbn [tell_all foldM] in *; [discriminate|].
  inversion HP as [|? ? Pe Pes]; subst. destruct e as [name now|now]; cbn [tell do_event proper] in *.
  - destruct (start_step h s name now T Pe) as (h1 & -> & T1). cbn [bind]. eapply IH; eauto.
  - destruct (open s) as [|[name t0] o] eqn:EO.
    + pose proof (t_cur h s T) as TC. rewrite EO in TC. inversion TC as [H|]. unfold stop. rewrite <- H. reflexivity.
    + destruct (stop_step h s name t0 o now T EO) as (h1 & -> & T1). cbn [bind]. eapply IH; [exact T1|exact Pes|]. rewrite EO. exact E.
Qed.

