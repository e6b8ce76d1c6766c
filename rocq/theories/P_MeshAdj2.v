From Verif Require Import Prelude M_Array M_Par M_Scan P_Scan M_Sort M_Map S_Map P_Map P_Map2 P_Fan M_Template S_Template P_Template M_Align S_Align P_Align S_Unique P_Unique M_Adj S_Adj P_Adj P_Match M_Transit S_Transit P_Transit M_Mark S_Mark P_Mark M_Across S_Across P_Across M_Graph S_Graph P_Graph M_MeshAdj S_MeshAdj P_MeshAdj.
Local Open Scope Z_scope.

Lemma check_dim_inv m d : check_dim m d = Ok tt -> 0 <= d <= a_dim m.
Proof. unfold check_dim. intros H. apply bind_ok in H as ([] & E & H). apply check_true in E, H. lia. Qed.
Lemma check_dim_ok m d : 0 <= d <= a_dim m -> check_dim m d = Ok tt.
Proof. intros H. unfold check_dim, check. destruct (Z.leb_spec 0 d); [|lia]. destruct (Z.leb_spec d (a_dim m)); [|lia]. reflexivity. Qed.
Lemma check_dim2_inv m d : check_dim2 m d = Ok tt -> 0 <= d <= a_dim m /\ 0 <= a_nents m d.
Proof.
  unfold check_dim2, has_ents. intros H. apply bind_ok in H as ([] & E & H). apply bind_ok in H as (b & E' & H). apply bind_ok in E' as ([] & _ & E'). injection E' as <-. apply check_true in H. apply check_dim_inv in E. lia.
Qed.
Lemma check_dim2_ok m d : 0 <= d <= a_dim m -> 0 <= a_nents m d -> check_dim2 m d = Ok tt.
Proof. intros H1 H2. unfold check_dim2, has_ents. rewrite check_dim_ok by assumption. cbn [bind]. destruct (Z.leb_spec 0 (a_nents m d)); [reflexivity|lia]. Qed.

(** ** nothing is replaced *)
Definition keeps (m m' : amesh) : Prop :=
  a_family m' = a_family m /\ a_dim m' = a_dim m /\ (forall d, 0 <= a_nents m d -> a_nents m' d = a_nents m d) /\
  forall from to a, a_adjs m from to = Some a -> a_adjs m' from to = Some a.
Lemma keeps_refl m : keeps m m. Proof. repeat split; auto. Qed.
Lemma keeps_trans a b c : keeps a b -> keeps b c -> keeps a c.
Proof. intros (A1 & A2 & A3 & A4) (B1 & B2 & B3 & B4). split; [congruence|]. split; [congruence|]. split; [|auto]. intros d Hd. rewrite B3; [auto|rewrite A3; auto]. Qed.

Section derive.
Context (ask : amesh -> Z -> Z -> answer).
Context (P : amesh -> amesh -> Prop) (Ptrans : forall a b c, P a b -> P b c -> P a c).
Context (Pask : forall m from to r, ask m from to = Ok (Some r) -> P m (fst r)).
Lemma both_mesh sw m p q r : ask_both ask sw m p q = Ok (Some r) -> P m (fst (fst r)).
Proof.
  unfold ask_both. destruct sw; intros H; apply bindo_some in H as (a & Ea & H); apply bindo_some in H as (b & Eb & H); injection H as <-; cbn [fst]; eapply Ptrans; [eapply Pask; exact Ea|eapply Pask; exact Eb|eapply Pask; exact Ea|eapply Pask; exact Eb].
Qed.
Lemma derive_mesh c m from to r : derive_adj ask c m from to = Ok (Some r) -> P m (fst r).
Proof.
  unfold derive_adj. intros H. apply bind_ok in H as (_ & _ & H). apply bind_ok in H as (_ & _ & H).
  destruct (from <? to); [|destruct (to <? from); [|destruct ((from =? a_dim m) && (to =? a_dim m))%bool; [|destruct ((from =? 0) && (to =? 0))%bool; [|destruct ((from =? 1) && (to =? 1))%bool; [|discriminate]]]]].
  - apply bindo_some in H as (a & Ea & H). apply bindo_some in H as (b & Eb & H). injection H as <-; cbn [fst]. eapply Pask; exact Ea.
  - apply bind_ok in H as (_ & _ & H). apply bindo_some in H as (a & Ea & H). apply bindo_some in H as (b & Eb & H). apply bind_ok in H as (t & _ & H). injection H as <-; cbn [fst]. eapply Ptrans; eapply Pask; [exact Ea|exact Eb].
  - apply bindo_some in H as (a & Ea & H). apply bindo_some in H as (b & Eb & H). apply bind_ok in H as (x & _ & H). apply bind_ok in H as (g & _ & H). injection H as <-; cbn [fst]. eapply Ptrans; [eapply both_mesh; exact Ea|eapply Pask; exact Eb].
  - apply bindo_some in H as (a & Ea & H). apply bind_ok in H as (g & _ & H). injection H as <-; cbn [fst]. eapply both_mesh; exact Ea.
  - apply bind_ok in H as (_ & _ & H). apply bindo_some in H as (a & Ea & H). apply bind_ok in H as (g & _ & H). destruct (a_dim m =? 3).
    + apply bindo_some in H as (b & Eb & H). apply bind_ok in H as (g' & _ & H). apply bind_ok in H as (g'' & _ & H). injection H as <-; cbn [fst]. eapply Ptrans; eapply both_mesh; [exact Ea|exact Eb].
    + injection H as <-; cbn [fst]. eapply both_mesh; exact Ea.
Qed.
End derive.

Lemma ask_keeps fuel : forall c m from to r, ask_within fuel c m from to = Ok (Some r) -> keeps m (fst r) /\ a_nents (fst r) = a_nents m /\ a_adjs (fst r) from to = Some (snd r) /\ 0 <= from <= a_dim m /\ 0 <= to <= a_dim m /\ 0 <= a_nents m from /\ 0 <= a_nents m to.
Proof.
  induction fuel as [|fuel IH]; intros c m from to r H; [discriminate|]. cbn [ask_within] in H.
  apply bind_ok in H as ([] & E1 & H). apply bind_ok in H as ([] & E2 & H). apply check_dim2_inv in E1 as [D1 N1], E2 as [D2 N2].
  destruct (a_adjs m from to) as [a|] eqn:E.
  - injection H as <-. cbn [fst snd]. split; [apply keeps_refl|auto 10].
  - apply bindo_some in H as (d & Ed & H). injection H as <-. cbn [fst snd].
    apply (derive_mesh (ask_within fuel c) (fun m m' => keeps m m' /\ a_nents m' = a_nents m)) in Ed as [K N].
    2: { intros x y z [K1 N1'] [K2 N2']. split; [eapply keeps_trans; eassumption|congruence]. }
    2: { intros x i j r Hr. destruct (IH _ _ _ _ _ Hr) as (A & B & _). auto. }
    destruct K as (K1 & K2 & K3 & K4). split; [|split; [exact N|split; [cbn; rewrite !Z.eqb_refl; reflexivity|auto]]].
    split; [exact K1|]. split; [exact K2|]. split; [exact K3|]. intros i j a Ha. cbn [with_adj a_adjs]. destruct ((i =? from) && (j =? to))%bool eqn:Eij; [|auto].
    apply andb_prop in Eij as [E1 E2]. apply Z.eqb_eq in E1, E2. subst. congruence.
Qed.

(** entities exist on both ends of an adjacency that is present *)
Definition grounded (m : amesh) : Prop := forall from to a, a_adjs m from to = Some a -> 0 <= a_nents m from.
Lemma ask_grounded c : forall fuel m from to r, grounded m -> ask_within fuel c m from to = Ok (Some r) -> grounded (fst r).
Proof.
  induction fuel as [|fuel IH]; intros m from to r G H; [discriminate|]. pose proof (ask_keeps _ _ _ _ _ _ H) as (_ & NN & _ & _ & _ & N1 & _). cbn [ask_within] in H.
  apply bind_ok in H as ([] & _ & H). apply bind_ok in H as ([] & _ & H). destruct (a_adjs m from to) as [a|] eqn:E; [injection H as <-; exact G|].
  apply bindo_some in H as (d & Ed & H). injection H as <-. cbn [fst snd] in *.
  pose proof (derive_mesh (ask_within fuel c) (fun m m' => grounded m -> grounded m') (fun a b c X Y Z => Y (X Z)) (fun m1 f1 t1 r1 E1 G1 => IH m1 f1 t1 r1 G1 E1) c m from to d Ed G) as Gd. clear Ed. rename Gd into Ed. intros i j a Ha. cbn [with_adj a_adjs a_nents] in *. destruct ((i =? from) && (j =? to))%bool eqn:Eij; [|eapply Ed; eassumption].
  apply andb_prop in Eij as [E1 E2]. apply Z.eqb_eq in E1, E2. subst. rewrite NN. exact N1.
Qed.
Lemma set_ents_inv m d down m' : set_ents m d down = Ok m' -> 0 <= d <= a_dim m /\ ~ 0 <= a_nents m d /\ 0 <= d - 1 /\
  exists n, 0 <= n /\ zlen (adj_ab2b down) = n * element_degree (a_family m) d (d - 1) /\ m' = with_adj (with_nents m d n) d (d - 1) down.
Proof.
  unfold set_ents. intros H. apply bind_ok in H as ([] & E & H). apply check_dim_inv in E. apply bind_ok in H as (h & Eh & H). unfold has_ents in Eh. rewrite check_dim_ok in Eh by assumption. cbn [bind] in Eh. injection Eh as <-.
  apply bind_ok in H as ([] & Eh & H). apply check_true in Eh. apply bind_ok in H as (n & En & H). unfold add_adj in H.
  apply bind_ok in H as ([] & C1 & H). apply check_dim2_inv in C1 as [_ C1]. cbn [with_nents a_nents] in C1. rewrite Z.eqb_refl in C1.
  apply bind_ok in H as ([] & C2 & H). apply check_dim_inv in C2. apply bind_ok in H as ([] & C3 & H). apply bind_ok in H as ([] & C4 & H). apply bind_ok in H as ([] & C5 & H). apply bind_ok in H as ([] & C6 & H).
  apply check_true in C6. cbn [with_nents a_nents a_family] in C6. rewrite Z.eqb_refl in C6. injection H as <-. split; [exact E|]. split; [destruct (Z.leb_spec 0 (a_nents m d)); [discriminate|lia]|]. split; [apply C2|].
  exists n. split; [exact C1|]. split; [lia|reflexivity].
Qed.
Lemma run_aevent_keeps m e m' : grounded m -> run_aevent m e = Ok (Some m') -> grounded m' /\ keeps m m'.
Proof.
  intros G. destruct e as [d down|from to c]; cbn [run_aevent]; intros H.
  - apply bind_ok in H as (x & E & H). injection H as <-. apply set_ents_inv in E as (D & N & D' & n & Hn & _ & ->). split.
    + intros i j a Ha. cbn [with_adj with_nents a_adjs a_nents] in *. destruct (Z.eqb_spec i d) as [->|]; cbn [andb] in Ha; [exact Hn|]. eapply G; exact Ha.
    + split; [reflexivity|]. split; [reflexivity|]. split.
      * intros k Hk. cbn. destruct (Z.eqb_spec k d) as [->|]; [lia|reflexivity].
      * intros i j a Ha. cbn. destruct (Z.eqb_spec i d) as [->|]; cbn [andb]; [|exact Ha]. pose proof (G _ _ _ Ha). lia.
  - apply bindo_some in H as (r & E & H). injection H as <-. split; [eapply ask_grounded; [exact G|exact E]|]. apply ask_keeps in E. apply E.
Qed.
Lemma run_aevents_keeps es : forall m m', grounded m -> run_aevents m es = Ok (Some m') -> grounded m' /\ keeps m m'.
Proof.
  induction es as [|e es IH]; intros m m' G H; cbn [run_aevents] in H; [injection H as <-; split; [exact G|apply keeps_refl]|].
  apply bindo_some in H as (m1 & E & H). destruct (run_aevent_keeps _ _ _ G E) as [G1 K1]. destruct (IH _ _ G1 H) as [G2 K2]. split; [exact G2|eapply keeps_trans; eassumption].
Qed.
Lemma new_grounded f dim n m : new_mesh f dim n = Ok m -> grounded m.
Proof. unfold new_mesh. intros H. apply bind_ok in H as (_ & _ & H). apply bind_ok in H as (_ & _ & H). injection H as <-. intros i j a Ha. discriminate. Qed.
Lemma never_replaced f dim nverts m0 es1 es2 m1 m2 : new_mesh f dim nverts = Ok m0 -> run_aevents m0 es1 = Ok (Some m1) -> run_aevents m1 es2 = Ok (Some m2) ->
  forall from to a, a_adjs m1 from to = Some a -> a_adjs m2 from to = Some a.
Proof. intros H0 H1 H2. destruct (run_aevents_keeps _ _ _ (new_grounded _ _ _ _ H0) H1) as [G _]. destruct (run_aevents_keeps _ _ _ G H2) as [_ K]. apply K. Qed.

(** ** what is present is right *)
Section topology.
Context (T : topology) (HT : valid_topology T).
Record Inv (m : amesh) : Prop := {
  i_family : a_family m = t_family T; i_dim : a_dim m = t_dim T;
  i_zero : 0 <= a_nents m 0;
  i_nents : forall d, 0 <= d <= t_dim T -> 0 <= a_nents m d -> a_nents m d = t_nents T d;
  i_down : forall d, 1 <= d <= t_dim T -> 0 <= a_nents m d -> a_adjs m d (d - 1) = Some (t_down T d);
  i_adjs : forall from to a, a_adjs m from to = Some a -> 0 <= from <= t_dim T -> 0 <= to <= t_dim T -> val T from to = Ok a }.

Lemma inv_with m from to a : Inv m -> a_adjs m from to = None -> val T from to = Ok a -> 0 <= a_nents m from -> Inv (with_adj m from to a).
Proof.
  intros [I1 I2 I3 I4 I5 I6] HN HV Hf. split; auto.
  - intros d Hd Hn. cbn. destruct ((d =? from) && (d - 1 =? to))%bool eqn:E; [|apply I5; assumption]. apply andb_prop in E as [E1 E2]. apply Z.eqb_eq in E1, E2. subst from to. rewrite (I5 d Hd Hn) in HN. discriminate.
  - intros i j b Hb Hi Hj. cbn in Hb. destruct ((i =? from) && (j =? to))%bool eqn:E; [|apply I6; assumption]. apply andb_prop in E as [E1 E2]. apply Z.eqb_eq in E1, E2. subst. congruence.
Qed.

Lemma val_down h l : l < h -> val T h l = downv T h l.
Proof. intros H. unfold val. destruct (Z.ltb_spec l h); [reflexivity|lia]. Qed.
Lemma val_up l h : l < h -> val T l h = upv_of T l h.
Proof. intros H. unfold val. destruct (Z.ltb_spec h l); [lia|]. destruct (Z.ltb_spec l h); [reflexivity|lia]. Qed.
Lemma val_across d : val T d d = acrossv T d.
Proof. unfold val. rewrite Z.ltb_irrefl. reflexivity. Qed.

(** the two steps from a region or face to its vertices *)
Lemma transit_val h l d1 d2 r : 0 <= l -> l + 1 < h -> h <= t_dim T -> downv T h (l + 1) = Ok d1 -> downv T (l + 1) l = Ok d2 -> transit d1 d2 (t_family T) h l = Ok r -> downv T h l = Ok (mk_adj [] (fst r) (snd r)).
Proof.
  intros Hl Hh Hd E1 E2 Et. pose proof (v_dim T HT) as HD. unfold downv at 1. destruct (Z.eqb_spec l (h - 1)); [lia|]. destruct (Z.eqb_spec l 0) as [->|].
  - change (0 + 1) with 1 in *. destruct (down_facts T HT h 1 ltac:(lia) Hd) as (d & Ed & Md & _). assert (d = d1) as -> by congruence. unfold means_down in Md. cbn [Z.eqb] in Md. destruct Md as (ab & codes & -> & L1 & L2 & R).
    assert (d2 = mk_adj [] (t_verts T 1) None) as ->. { unfold downv in E2. cbn [Z.eqb Z.sub] in E2. change (1 - 1) with 0 in E2. cbn [Z.eqb] in E2. injection E2 as <-. apply (v_edges T HT). }
    destruct (v_verts T HT h ltac:(lia)) as (V1 & V2 & _).
    rewrite (transit_verts_spec (t_family T) h (t_verts T h) (t_verts T 1) ab codes (t_nents T h) ltac:(lia) V1 V2 L1 R) in Et. injection Et as <-. reflexivity.
  - assert (h = 3) as -> by lia. assert (l = 1) as -> by lia. change (1 + 1) with 2 in *. unfold downv in E1, E2. change (3 - 1) with 2 in E1. change (2 - 1) with 1 in E2. rewrite Z.eqb_refl in E1, E2. injection E1 as <-. injection E2 as <-. rewrite Et. reflexivity.
Qed.

Section derive.
Context (ask : amesh -> Z -> Z -> answer) (Hask : forall m from to r, Inv m -> ask m from to = Ok (Some r) -> Inv (fst r) /\ val T from to = Ok (snd r)).
Lemma both_inv sw m p q r : Inv m -> ask_both ask sw m p q = Ok (Some r) -> Inv (fst (fst r)) /\ val T (fst p) (snd p) = Ok (snd (fst r)) /\ val T (fst q) (snd q) = Ok (snd r).
Proof.
  intros I. unfold ask_both. destruct sw; intros H; apply bindo_some in H as (a & Ea & H); apply bindo_some in H as (b & Eb & H); injection H as <-; cbn [fst snd];
  destruct (Hask _ _ _ _ I Ea) as [I1 V1]; destruct (Hask _ _ _ _ I1 Eb) as [I2 V2]; auto.
Qed.
Lemma derive_inv c m from to r : Inv m -> 0 <= from <= t_dim T -> 0 <= a_nents m from -> derive_adj ask c m from to = Ok (Some r) -> Inv (fst r) /\ val T from to = Ok (snd r).
Proof.
  intros I Df Nf. pose proof (v_dim T HT) as HD. pose proof (i_family m I) as IF. pose proof (i_dim m I) as ID. pose proof (i_nents m I from Df Nf) as IN.
  unfold derive_adj. intros H. apply bind_ok in H as (_ & _ & H). apply bind_ok in H as ([] & Ct & H). apply check_dim2_inv in Ct as [Dt Nt]. rewrite ?IF, ?ID, ?IN in *.
  destruct (Z.ltb_spec from to) as [Lft|Lft].
  - apply bindo_some in H as (a & Ea & H). apply bindo_some in H as (b & Eb & H). injection H as <-. cbn [fst snd]. destruct (Hask _ _ _ _ I Ea) as [I1 V1]. split; [exact I1|].
    rewrite val_down in V1 by lia. rewrite val_up by lia. destruct (up_facts T HT from to ltac:(lia) ltac:(lia)) as (d & up & E1 & E2 & _ & _ & K). assert (snd a = d) as <- by congruence.
    destruct (K (c_mem c from to) (c_first c from to) (c_second c from to)) as (o & Eo & Ho). rewrite (Ho b); [exact E2|congruence].
  - destruct (Z.ltb_spec to from) as [Ltf|Ltf].
    + apply bind_ok in H as ([] & Cc & H). apply check_true in Cc. apply bindo_some in H as (a & Ea & H). apply bindo_some in H as (b & Eb & H). apply bind_ok in H as (t & Et & H). injection H as <-. cbn [fst snd].
      destruct (Hask _ _ _ _ I Ea) as [I1 V1]. destruct (Hask _ _ _ _ I1 Eb) as [I2 V2]. split; [exact I2|]. rewrite val_down in V1, V2 by lia. rewrite val_down by lia. eapply transit_val; try eassumption; lia.
    + assert (to = from) as -> by lia. rewrite val_across. unfold acrossv. destruct (Z.eqb_spec from (t_dim T)) as [->|].
      * cbn [andb] in H. apply bindo_some in H as (a & Ea & H). apply bindo_some in H as (b & Eb & H). apply bind_ok in H as (x & Ex & H). apply bind_ok in H as (g & Eg & H). injection H as <-. cbn [fst snd].
        destruct (both_inv _ _ _ _ _ I Ea) as (I1 & V1 & V2). destruct (Hask _ _ _ _ I1 Eb) as [I2 V3]. split; [exact I2|]. cbn [fst snd] in V1, V2. rewrite val_down in V1 by lia. rewrite val_up in V2, V3 by lia.
        rewrite V1, V2. cbn [bind]. assert (snd b = snd a) as Eba by congruence. rewrite Eba in Ex. rewrite Ex. cbn [bind]. rewrite Eg. reflexivity.
      * cbn [andb] in H. destruct (Z.eqb_spec from 0) as [->|].
        -- cbn [andb] in H. apply bindo_some in H as (a & Ea & H). apply bind_ok in H as (g & Eg & H). injection H as <-. destruct (both_inv _ _ _ _ _ I Ea) as (I1 & V1 & V2). cbn [fst snd] in *. split; [exact I1|].
           rewrite val_down in V1 by lia. rewrite val_up in V2 by lia. rewrite V1, V2. cbn [bind]. rewrite Eg. reflexivity.
        -- cbn [andb] in H. destruct (Z.eqb_spec from 1) as [->|]; [|discriminate]. cbn [andb] in H. apply bind_ok in H as ([] & Cc & H). rewrite Cc. cbn [bind]. apply bindo_some in H as (a & Ea & H). apply bind_ok in H as (g & Eg & H).
           destruct (both_inv _ _ _ _ _ I Ea) as (I1 & V1 & V2). cbn [fst snd] in V1, V2. rewrite val_down in V1 by lia. rewrite val_up in V2 by lia. rewrite V1, V2. cbn [bind]. rewrite Eg. cbn [bind].
           destruct (t_dim T =? 3).
           ++ apply bindo_some in H as (b & Eb & H). apply bind_ok in H as (g' & Eg' & H). apply bind_ok in H as (g'' & Eg'' & H). injection H as <-. destruct (both_inv _ _ _ _ _ I1 Eb) as (I2 & V3 & V4). cbn [fst snd] in *. split; [exact I2|].
              rewrite val_down in V3 by lia. rewrite val_up in V4 by lia. rewrite V3, V4. cbn [bind]. rewrite Eg'. cbn [bind]. rewrite Eg''. reflexivity.
           ++ injection H as <-. split; [exact I1|reflexivity].
Qed.
End derive.

Lemma ask_inv c : forall fuel m from to r, Inv m -> ask_within fuel c m from to = Ok (Some r) -> Inv (fst r) /\ val T from to = Ok (snd r).
Proof.
  induction fuel as [|fuel IH]; intros m from to r I H; [discriminate|]. pose proof (ask_keeps _ _ _ _ _ _ H) as (_ & NN & _ & D1 & D2 & N1 & N2). rewrite (i_dim m I) in D1, D2. cbn [ask_within] in H.
  apply bind_ok in H as ([] & _ & H). apply bind_ok in H as ([] & _ & H). destruct (a_adjs m from to) as [a|] eqn:E.
  - injection H as <-. cbn [fst snd]. split; [exact I|]. eapply (i_adjs m I); eassumption.
  - apply bindo_some in H as (d & Ed & H). injection H as <-. cbn [fst snd] in *. destruct (derive_inv _ IH c m from to d I D1 N1 Ed) as [I1 V]. split; [|exact V].
    destruct (a_adjs (fst d) from to) as [a'|] eqn:E'.
    + assert (val T from to = Ok a') as V' by (eapply (i_adjs _ I1); eassumption). assert (a' = snd d) as -> by congruence.
      destruct I1 as [J1 J2 J3 J4 J5 J6]. split; auto.
      * intros k Hk Hn. cbn. destruct ((k =? from) && (k - 1 =? to))%bool eqn:Ek; [|apply J5; assumption]. apply andb_prop in Ek as [E1 E2]. apply Z.eqb_eq in E1, E2. subst from to. rewrite <- (J5 k Hk Hn). symmetry. exact E'.
      * intros i j b Hb Hi Hj. cbn in Hb. destruct ((i =? from) && (j =? to))%bool eqn:Ek; [|apply J6; assumption]. apply andb_prop in Ek as [E1 E2]. apply Z.eqb_eq in E1, E2. subst. congruence.
    + apply inv_with; [exact I1|exact E'|exact V|]. cbn [with_adj a_nents] in NN. rewrite NN. exact N1.
Qed.

Lemma start_inv m : new_mesh (t_family T) (t_dim T) (t_nents T 0) = Ok m -> Inv m.
Proof.
  unfold new_mesh. intros H. apply bind_ok in H as (_ & _ & H). apply bind_ok in H as (_ & _ & H). injection H as <-. pose proof (v_dim T HT). pose proof (v_nents T HT 0 ltac:(lia)) as N0.
  split; cbn; auto; try discriminate; intros d Hd Hn; destruct (Z.eqb_spec d 0) as [->|]; try lia.
Qed.
Lemma run_inv es : forall m m', Inv m -> builds T es -> run_aevents m es = Ok (Some m') -> Inv m'.
Proof.
  induction es as [|e es IH]; intros m m' I HB H; cbn [run_aevents] in H; [injection H as <-; exact I|].
  apply bindo_some in H as (m1 & E & H). apply (IH m1 m'); [|intros d a Hin; apply HB; right; exact Hin|exact H]. destruct e as [d down|from to c]; cbn [run_aevent] in E.
  - apply bind_ok in E as (x & E & Ex). injection Ex as <-. assert (down = t_down T d) as -> by (apply HB; left; reflexivity). apply set_ents_inv in E as (D & N & D' & n & Hn & L & ->). pose proof (v_dim T HT) as HD.
    destruct I as [I1 I2 I3 I4 I5 I6]. rewrite I1 in L. rewrite I2 in D. destruct (down_facts T HT d (d - 1) ltac:(lia) ltac:(lia)) as (dd & Ed & _ & _ & Ld & _).
    unfold downv in Ed. rewrite Z.eqb_refl in Ed. injection Ed as <-. pose proof (degree_pos (t_family T) d (d - 1) ltac:(lia) ltac:(lia)) as Hp.
    assert (n = t_nents T d) as -> by nia.
    split; cbn [with_adj with_nents a_family a_dim a_nents a_adjs]; auto.
    + destruct (Z.eqb_spec 0 d); [lia|exact I3].
    + intros k Hk Hk'. destruct (Z.eqb_spec k d) as [->|]; [reflexivity|]. apply I4; assumption.
    + intros k Hk Hk'. destruct (Z.eqb_spec k d) as [->|]; [rewrite Z.eqb_refl; reflexivity|]. cbn [andb]. apply I5; assumption.
    + intros i j a Ha Hi Hj. destruct ((i =? d) && (j =? d - 1))%bool eqn:Eij; [|apply I6; assumption]. apply andb_prop in Eij as [E1 E2]. apply Z.eqb_eq in E1, E2. subst i j. injection Ha as <-. rewrite val_down by lia. unfold downv. rewrite Z.eqb_refl. reflexivity.
  - apply bindo_some in E as (r & E & Er). injection Er as <-. eapply ask_inv; eassumption.
Qed.

(** ** the graphs within a dimension *)
Lemma uses_length l n up deg hl2l dc : lists_uses deg n hl2l dc up -> 0 <= l < n -> exists lo hi, zget (adj_a2ab up) l = Ok lo /\ zget (adj_a2ab up) (l + 1) = Ok hi /\ hi - lo = zlen (uses_of hl2l l).
Proof.
  intros ((Wf & _) & Wl & _ & HU) Hl. destruct (HU l Hl) as [E _]. unfold adj_targets, targets in E. cbn [a2ab ab2b] in E. apply bind_ok in E as (lo & Elo & E). apply bind_ok in E as (hi & Ehi & E).
  exists lo, hi. split; [exact Elo|]. split; [exact Ehi|]. apply mapM_length in E. pose proof (fan_mono _ l (l + 1) lo hi Wf Elo Ehi ltac:(lia)) as M. assert (zlen (map (fun u => u / deg) (uses_of hl2l l)) = zlen (zfromto lo hi)) as K by (unfold zlen; rewrite E; reflexivity).
  rewrite zlen_map, zlen_zfromto in K by lia. lia.
Qed.
Lemma across_facts d : answerable T d d -> exists a, acrossv T d = Ok a /\ means_across T d a.
Proof.
  intros (Hd & _ & [N|(HF & HM & Hx)]); [congruence|]. pose proof (v_dim T HT) as HD. unfold acrossv, means_across. destruct (Z.eqb_spec d (t_dim T)) as [->|Nd].
  - destruct (up_facts T HT (t_dim T - 1) (t_dim T) ltac:(lia) ltac:(lia)) as (dn & up & E1 & E2 & _ & HU & _). destruct (down_facts T HT (t_dim T) (t_dim T - 1) ltac:(lia) ltac:(lia)) as (dn' & E1' & _ & _ & L & R & NR & CL).
    assert (dn' = dn) as -> by congruence. assert (dn = t_down T (t_dim T)) as -> by (unfold downv in E1; rewrite Z.eqb_refl in E1; congruence).
    rewrite E1, E2. cbn [bind]. pose proof (v_nents T HT (t_dim T - 1) ltac:(lia)) as Hn. rewrite HF in *.
    assert (element_degree OMEGA_H_SIMPLEX (t_dim T) (t_dim T - 1) = t_dim T + 1) as ED. { assert (t_dim T = 1 \/ t_dim T = 2 \/ t_dim T = 3) as [->|[->| ->]] by lia; reflexivity. }
    rewrite ED in *. destruct (exposed_spec (adj_a2ab up) (proj1 (proj1 HU))) as (x & Ex & Lx & Sx). rewrite Ex. cbn [bind]. pose proof (proj1 (proj2 HU)) as LU.
    destruct (sides_across_spec (t_dim T) (t_nents T (t_dim T - 1)) (t_nents T (t_dim T)) (adj_ab2b (t_down T (t_dim T))) (adj_codes (t_down T (t_dim T))) (t_down T (t_dim T)) up x) as (g & Eg & Wg & Ng & Tg); auto; try lia.
    { intros s Hs. destruct (uses_length s _ _ _ _ _ HU Hs) as (lo & hi & Elo & Ehi & Eh). specialize (Sx s lo hi). rewrite <- Eh. apply Sx; assumption. }
    rewrite Eg. cbn [bind]. eexists. split; [reflexivity|]. split; [reflexivity|]. destruct g as [ga gb]. split; [exact Wg|]. split; [exact Ng|]. exact Tg.
  - destruct Hx as [Hx|Hx]; [congruence|]. destruct (Z.eqb_spec d 0) as [->|N0].
    + destruct (up_facts T HT 0 1 ltac:(lia) ltac:(lia)) as (dn & up & E1 & E2 & _ & HU & _). assert (dn = t_down T 1) as -> by (unfold downv in E1; cbn in E1; congruence). rewrite E1, E2. cbn [bind].
      rewrite (v_edges T HT) in *. cbn [adj_ab2b adj_codes] in HU. rewrite HF in HU. change (element_degree OMEGA_H_SIMPLEX 1 0) with 2 in HU. pose proof (v_nents T HT 0 ltac:(lia)) as Hn. destruct (v_verts T HT 1 ltac:(lia)) as (V1 & _ & _). rewrite HF in V1. change (element_degree OMEGA_H_SIMPLEX 1 0) with 2 in V1.
      destruct (verts_across_spec (t_verts T 1) (t_nents T 1) (t_nents T 0) up (mk_adj [] (t_verts T 1) None) Hn eq_refl V1 HU) as (g & Eg & Wg & Ng & Tg). rewrite Eg. cbn [bind]. eexists. split; [reflexivity|]. split; [reflexivity|]. destruct g as [ga gb]. split; [exact Wg|]. split; [exact Ng|]. exact Tg.
    + assert (d = 1) as -> by lia. cbn [Z.eqb]. unfold check. destruct (Z.leb_spec 2 (t_dim T)); [|lia]. cbn [bind].
      destruct (up_facts T HT 1 2 ltac:(lia) ltac:(lia)) as (dn & up & E1 & E2 & _ & HU & _). destruct (down_facts T HT 2 1 ltac:(lia) ltac:(lia)) as (dn' & E1' & _ & _ & L & R & NR & CL). assert (dn' = dn) as -> by congruence. assert (dn = t_down T 2) as -> by (unfold downv in E1; cbn in E1; congruence). rewrite E1, E2. cbn [bind].
      rewrite HF in *. change (element_degree OMEGA_H_SIMPLEX 2 1) with 3 in *. pose proof (v_nents T HT 1 ltac:(lia)) as Hn.
      destruct (tris_across_spec (adj_ab2b (t_down T 2)) (t_nents T 2) (t_nents T 1) (t_down T 2) up (adj_codes (t_down T 2)) Hn eq_refl L CL HU) as (g & Eg & Wg & Ng & Tg). rewrite Eg. cbn [bind].
      destruct (Z.eqb_spec (t_dim T) 3) as [E3|N3].
      * destruct (up_facts T HT 1 3 ltac:(lia) ltac:(lia)) as (dr & upr & E3' & E4 & _ & HUr & _). destruct (down_facts T HT 3 1 ltac:(lia) ltac:(lia)) as (dr' & E5 & Mr & _ & Lr & Rr & NRr & CLr). assert (dr' = dr) as -> by congruence. rewrite E3', E4. cbn [bind].
        rewrite HF in *. change (element_degree OMEGA_H_SIMPLEX 3 1) with 6 in *.
        destruct (tets_across_spec (adj_ab2b dr) (t_nents T 3) (t_nents T 1) dr upr (adj_codes dr) Hn eq_refl Lr CLr HUr) as (g' & Eg' & Wg' & Ng' & Tg'). rewrite Eg'. cbn [bind].
        destruct (add_edges_spec g g' Wg Wg' ltac:(congruence)) as (g2 & Eg2 & Wg2 & Ng2 & Tg2). rewrite Eg2. cbn [bind]. eexists. split; [reflexivity|]. split; [reflexivity|]. destruct g2 as [ga gb]. split; [exact Wg2|]. split; [unfold nnodes in *; cbn [to_graph of_graph adj_a2ab adj_ab2b a2ab ab2b] in *; congruence|].
        intros e He. destruct (Tg e He) as (rs & Er & Et). exists rs. split; [exact Er|]. destruct (Z.eqb_spec (t_dim T) 2); [lia|].
        destruct (wf_targets g' e Wg' ltac:(lia)) as (ts & Ets). exists dr, ts. split; [exact Mr|]. split; [rewrite <- Tg' by exact He; exact Ets|].
        assert (nnodes g = t_nents T 1) as Nn by exact Ng. specialize (Tg2 e (concat rs) ts). unfold adj_targets. cbn [of_graph adj_a2ab adj_ab2b]. apply Tg2; auto.
      * eexists. split; [reflexivity|]. split; [reflexivity|]. destruct g as [ga gb]. split; [exact Wg|]. split; [exact Ng|]. intros e He. destruct (Tg e He) as (rs & Er & Et). exists rs. split; [exact Er|]. destruct (Z.eqb_spec (t_dim T) 2); [exact Et|lia].
Qed.
Lemma val_means from to : answerable T from to -> exists a, val T from to = Ok a /\ means T from to a.
Proof.
  intros HA. pose proof HA as (H1 & H2 & H3). unfold means. destruct (Z.ltb_spec to from) as [L|L].
  - rewrite val_down by exact L. destruct (down_facts T HT from to ltac:(lia) ltac:(lia)) as (d & E & M & _). eauto.
  - destruct (Z.ltb_spec from to) as [L'|L'].
    + rewrite val_up by exact L'. destruct (up_facts T HT from to ltac:(lia) ltac:(lia)) as (d & up & _ & E & M & _). eauto.
    + assert (to = from) as -> by lia. rewrite val_across. apply across_facts, HA.
Qed.
End topology.
