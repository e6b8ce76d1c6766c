From Verif Require Import Prelude M_Array M_Par M_Scan M_Sort M_Map S_Map M_Adj S_Adj M_Graph S_Graph P_Graph M_Parents S_Parents P_Parents.
Local Open Scope Z_scope.

Section history.
Context (dim : Z) (nents : Z -> Z).
(** parents and children held by [m], in terms of the history *)
Record Held (es : list fevent) (m : fmesh) : Prop := {
  h_dim : f_dim m = dim; h_nents : f_nents m = nents;
  h_parents : forall d, match f_parents m d with Some p => p = parents_after d (nents d) es | None => parents_after d (nents d) es = orphans (nents d) end;
  h_children : forall pd cd, match f_children m pd cd with
    | Some ch => before_request pd cd es <> es /\ exists m0 s1 s2, 0 <= nents pd /\ invert_parents (parents_after cd (nents cd) (before_request pd cd es)) pd (nents pd) m0 s1 s2 = Ok (Some ch)
    | None => before_request pd cd es = es end }.

Lemma parents_after_snoc d n es e : parents_after d n (es ++ [e]) = match e with SetParents k p => if k =? d then p else parents_after d n es | _ => parents_after d n es end.
Proof. unfold parents_after. rewrite fold_left_app. reflexivity. Qed.
Lemma before_id_snoc pd cd es e : before_request pd cd es = es -> (forall p c m0 s1 s2, e = AskChildren p c m0 s1 s2 -> (p =? pd) && (c =? cd) = false)%bool -> before_request pd cd (es ++ [e]) = es ++ [e].
Proof.
  intros H He. induction es as [|x es IH]; cbn [app].
  - destruct e as [d p|d|p c m0 s1 s2]; cbn; auto. rewrite (He p c m0 s1 s2 eq_refl). reflexivity.
  - destruct x as [d p|d|p c m0 s1 s2]; cbn [before_request] in *; try (f_equal; apply IH; congruence).
    destruct ((p =? pd) && (c =? cd))%bool; [discriminate|]. f_equal. apply IH. congruence.
Qed.
Lemma before_hit pd cd es m0 s1 s2 : before_request pd cd es = es -> before_request pd cd (es ++ [AskChildren pd cd m0 s1 s2]) = es.
Proof.
  intros H. induction es as [|x es IH]; cbn [app].
  - cbn. rewrite !Z.eqb_refl. reflexivity.
  - destruct x as [d p|d|p c m0' s1' s2']; cbn [before_request] in *; try (f_equal; apply IH; congruence).
    destruct ((p =? pd) && (c =? cd))%bool; [discriminate|]. f_equal. apply IH. congruence.
Qed.
Lemma before_stop pd cd es e : before_request pd cd es <> es -> before_request pd cd (es ++ [e]) = before_request pd cd es.
Proof.
  intros H. induction es as [|x es IH]; cbn [app]; [contradiction H; reflexivity|].
  destruct x as [d p|d|p c m0' s1' s2']; cbn [before_request] in *; try (f_equal; apply IH; congruence).
  destruct ((p =? pd) && (c =? cd))%bool; [reflexivity|]. f_equal. apply IH. congruence.
Qed.
Lemma list_eq_dec_before pd cd es : before_request pd cd es = es \/ before_request pd cd es <> es.
Proof.
  induction es as [|[d p|d|p c m0 s1 s2] es IH]; cbn [before_request]; auto; try (destruct IH as [E|N]; [left; congruence|right; congruence]).
  destruct (_ && _)%bool; [right; discriminate|]. destruct IH as [E|N]; [left; congruence|right; congruence].
Qed.
Lemma before_length pd cd es : (length (before_request pd cd es) <= length es)%nat.
Proof. induction es as [|[d p|d|p c m0 s1 s2] es IH]; cbn; try lia. destruct (_ && _)%bool; cbn; lia. Qed.
Lemma before_stays pd cd es e : before_request pd cd es <> es -> before_request pd cd (es ++ [e]) <> es ++ [e].
Proof. intros H E. rewrite before_stop in E by exact H. pose proof (before_length pd cd es). rewrite E, app_length in *. cbn in *. lia. Qed.

Lemma f_check_inv m d : f_check_dim2 m d = Ok tt -> 0 <= d <= f_dim m /\ 0 <= f_nents m d.
Proof. unfold f_check_dim2, check. intros H. destruct (Z.leb_spec 0 d); [|discriminate]. destruct (Z.leb_spec d (f_dim m)); [|discriminate]. destruct (Z.leb_spec 0 (f_nents m d)); [|discriminate]. lia. Qed.

Lemma ask_parents_held es m d r : Held es m -> ask_parents m d = Ok r -> snd r = parents_after d (nents d) es /\ Held es (fst r) /\ f_children (fst r) = f_children m /\ f_nents (fst r) = nents.
Proof.
  intros [H1 H2 H3 H4] E. unfold ask_parents in E. apply bind_ok in E as ([] & Ec & E). apply f_check_inv in Ec as [_ Nd]. pose proof (H3 d) as Hd. destruct (f_parents m d) as [p|] eqn:Ep.
  - injection E as <-. cbn [fst snd]. split; [exact Hd|]. split; [split; auto|auto].
  - unfold filled in E. destruct (Z.ltb_spec (f_nents m d) 0); [lia|]. cbn [bind] in E. apply bind_ok in E as (m' & Em & E). unfold set_parents in Em. apply bind_ok in Em as ([] & _ & Em). injection Em as <-. injection E as <-. cbn [fst snd].
    split; [rewrite Hd, H2; reflexivity|]. split; [|split; [reflexivity|exact H2]]. split; cbn [f_dim f_nents f_parents f_children]; auto. intros k. destruct (Z.eqb_spec k d) as [->|]; [rewrite Hd, H2; reflexivity|apply H3].
Qed.

Lemma step_held es m e m' : Held es m -> run_fevent m e = Ok (Some m') -> Held (es ++ [e]) m'.
Proof.
  intros HH E. pose proof HH as [H1 H2 H3 H4].
  assert (forall pd cd ch, f_children m pd cd = Some ch -> before_request pd cd (es ++ [e]) <> es ++ [e] /\ exists m0 s1 s2, 0 <= nents pd /\ invert_parents (parents_after cd (nents cd) (before_request pd cd (es ++ [e]))) pd (nents pd) m0 s1 s2 = Ok (Some ch)) as KC.
  { intros pd cd ch Ech. specialize (H4 pd cd). rewrite Ech in H4. destruct H4 as [N K]. split; [apply before_stays, N|]. rewrite before_stop by exact N. exact K. }
  destruct e as [d p|d|pd cd m0 s1 s2]; cbn [run_fevent] in E.
  - apply bind_ok in E as (x & Ex & E). injection E as <-. unfold set_parents in Ex. apply bind_ok in Ex as ([] & _ & Ex). injection Ex as <-.
    split; cbn [f_dim f_nents f_parents f_children]; auto.
    + intros k. rewrite parents_after_snoc. destruct (Z.eqb_spec k d) as [->|N]; [rewrite Z.eqb_refl; reflexivity|]. destruct (Z.eqb_spec d k); [congruence|]. apply H3.
    + intros i j. destruct (f_children m i j) as [ch|] eqn:Ech; [apply KC, Ech|]. apply before_id_snoc; [specialize (H4 i j); rewrite Ech in H4; exact H4|discriminate].
  - apply bind_ok in E as (r & Er & E). injection E as <-. destruct (ask_parents_held es m d r HH Er) as (_ & [J1 J2 J3 J4] & C & _). split; auto.
    + intros k. rewrite parents_after_snoc. apply J3.
    + intros i j. rewrite C. destruct (f_children m i j) as [ch|] eqn:Ech; [apply KC, Ech|]. apply before_id_snoc; [specialize (H4 i j); rewrite Ech in H4; exact H4|discriminate].
  - apply bind_ok in E as (o & Eo & E). destruct o as [r|]; [|discriminate]. injection E as <-. unfold ask_children in Eo. apply bind_ok in Eo as ([] & Ec & Eo). apply f_check_inv in Ec as [_ Np]. rewrite H2 in Np. apply bind_ok in Eo as (q & Eq & Eo).
    destruct (ask_parents_held es m cd q HH Eq) as (V & [J1 J2 J3 J4] & C & N). rewrite C in Eo. rewrite N in Eo. destruct (f_children m pd cd) as [ch0|] eqn:E0.
    + injection Eo as <-. cbn [fst]. split; auto.
      * intros k. rewrite parents_after_snoc. apply J3.
      * intros i j. rewrite C. destruct (f_children m i j) as [ch|] eqn:Ech; [apply KC, Ech|]. apply before_id_snoc; [specialize (H4 i j); rewrite Ech in H4; exact H4|].
        intros p c x1 x2 x3 Ee. injection Ee as <- <- _ _ _. destruct (Z.eqb_spec pd i) as [->|]; [|reflexivity]. destruct (Z.eqb_spec cd j) as [->|]; [congruence|reflexivity].
    + apply bind_ok in Eo as (o & Einv & Eo). destruct o as [ch|]; [|discriminate]. injection Eo as <-. cbn [fst]. split; cbn [f_dim f_nents f_parents f_children]; auto.
      * intros k. rewrite parents_after_snoc. apply J3.
      * intros i j. pose proof (H4 pd cd) as H4'. rewrite E0 in H4'. destruct ((i =? pd) && (j =? cd))%bool eqn:Eij.
        -- apply andb_prop in Eij as [E1 E2]. apply Z.eqb_eq in E1, E2. subst i j. rewrite before_hit by exact H4'. split.
           ++ intros Eb. apply (f_equal (@length _)) in Eb. rewrite app_length in Eb. cbn in Eb. lia.
           ++ exists m0, s1, s2. split; [exact Np|]. rewrite <- V. exact Einv.
        -- destruct (f_children m i j) as [ch'|] eqn:Ech; [apply KC, Ech|]. apply before_id_snoc; [specialize (H4 i j); rewrite Ech in H4; exact H4|].
           intros p c x1 x2 x3 Ee. injection Ee as <- <- _ _ _. rewrite (Z.eqb_sym pd i), (Z.eqb_sym cd j). exact Eij.
Qed.
Lemma run_held es : forall es0 m m', Held es0 m -> run_fevents m es = Ok (Some m') -> Held (es0 ++ es) m'.
Proof.
  induction es as [|e es IH]; intros es0 m m' H E; cbn [run_fevents] in E; [injection E as <-; rewrite app_nil_r; exact H|].
  apply bind_ok in E as ([m1|] & E1 & E); [|discriminate]. replace (es0 ++ e :: es) with ((es0 ++ [e]) ++ es) by (rewrite <- app_assoc; reflexivity). eapply IH; [eapply step_held; eassumption|exact E].
Qed.
Lemma start_held : Held [] (childless dim nents).
Proof. split; cbn; auto. Qed.

Lemma children_asked es m pd cd m0 s1 s2 r : run_fevents (childless dim nents) es = Ok (Some m) -> ask_children m pd cd m0 s1 s2 = Ok (Some r) ->
  let p := parents_after cd (nents cd) (before_request pd cd es) in proper_parents p pd (nents pd) -> lists_children p pd (nents pd) (snd r).
Proof.
  intros E Er p HP. pose proof (run_held es [] _ _ start_held E) as HH. cbn [app] in HH.
  assert (run_fevent m (AskChildren pd cd m0 s1 s2) = Ok (Some (fst r))) as Es by (cbn [run_fevent]; rewrite Er; reflexivity).
  pose proof (step_held _ _ _ _ HH Es) as [_ _ _ H4]. specialize (H4 pd cd).
  assert (f_children (fst r) pd cd = Some (snd r)) as Ef.
  { unfold ask_children in Er. apply bind_ok in Er as (_ & _ & Er). apply bind_ok in Er as (q & Eq & Er). destruct (f_children (fst q) pd cd) as [c|] eqn:Ec; [injection Er as <-; exact Ec|].
    apply bind_ok in Er as ([c|] & _ & Er); [|discriminate]. injection Er as <-. cbn. rewrite !Z.eqb_refl. reflexivity. }
  rewrite Ef in H4. destruct H4 as (_ & a & b & c & Hn & Ei).
  assert (before_request pd cd (es ++ [AskChildren pd cd m0 s1 s2]) = before_request pd cd es) as Eb.
  { destruct (list_eq_dec_before pd cd es) as [Eb|Nb]; [rewrite before_hit by exact Eb; symmetry; exact Eb|apply before_stop, Nb]. }
  rewrite Eb in Ei. fold p in Ei. destruct (invert_parents_spec p pd (nents pd) a b c Hn HP) as (o & Eo & Ho). apply Ho. congruence.
Qed.
Lemma parents_asked es m d r : run_fevents (childless dim nents) es = Ok (Some m) -> ask_parents m d = Ok r -> snd r = parents_after d (nents d) es.
Proof. intros E Er. pose proof (run_held es [] _ _ start_held E) as HH. apply (ask_parents_held es m d r HH Er). Qed.
End history.
