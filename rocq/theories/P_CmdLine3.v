(** Proofs for C82: where the values come from, and lines whose last word clashes. *)
From Coq Require Import String Lia.
From Verif Require Import Prelude M_CmdLine S_CmdLine P_CmdLine1 P_CmdLine2.
Local Open Scope Z_scope.

Lemma reads_no_clash c ts c' left b : reads c ts c' left b -> b = true -> distinct_flags c -> forall c'' left'', ~ reads c ts c'' left'' false.
Proof.
  induction 1 as [c | c before f after vals rest c' left clash HF Hp Hl R IH | c rest c' left clash Hno R IH | c before a after w rest c' left clash Hno Hnh Ha Hb R IH | c w rest c' left clash Hno Hnh Hb R IH]; intros Hbt HD c'' left'' Q.
  - discriminate.
  - destruct (reads_flag_inv _ _ _ _ _ Q before f after HF eq_refl HD) as (_ & vals' & rest' & E & El & R' & Hn).
    assert (vals' = vals /\ rest' = rest) as [-> ->].
    { assert (L : length vals = length vals') by congruence. clear - E L. revert vals' L E. induction vals as [|v vals IH]; intros [|v' vals'] L E; try discriminate; [auto|].
      cbn in E. injection E as -> E. destruct (IH vals') as [-> ->]; auto. }
    destruct rest as [|y rest].
    + rewrite (Hn eq_refl) in Hbt. discriminate.
    + apply (IH Hbt) with c'' left''; [|exact R']. unfold distinct_flags in *. cbn. rewrite HF in HD. rewrite map_app in *. exact HD.
  - destruct (reads_help_inv _ _ _ _ Q Hno) as (left1 & _ & Q1). exact (IH Hbt HD _ _ Q1).
  - exact (IH Hbt HD _ _ (reads_arg_inv _ _ _ _ _ _ _ _ Q Hno Hnh Ha Hb)).
  - destruct (reads_other_inv _ _ _ _ _ Q Hno Hnh Hb) as (left1 & _ & Q1). exact (IH Hbt HD _ _ Q1).
Qed.

Lemma clash_rejected_w c prog ts l c' left : reachable c -> distinct_flags c -> holds (prog :: ts) l -> reads c ts c' left true -> exists c'' l'', parse c l = Ok (Some (false, c'', l'')).
Proof.
  intros H HD HL R. apply (parse_fails_w c prog ts l H HD HL). intros (c0 & left0 & Q & _). exact (reads_no_clash _ _ _ _ _ R eq_refl HD _ _ Q).
Qed.

Lemma nth_mid {A} (before : list A) x after k : nth_error (before ++ x :: after) k = if Nat.eqb k (length before) then Some x else nth_error (before ++ x :: after) k.
Proof. destruct (Nat.eqb_spec k (length before)) as [->|]; [|reflexivity]. rewrite nth_error_app2 by lia. rewrite Nat.sub_diag. reflexivity. Qed.

Lemma nth_other {A} (before : list A) x y after k : k <> length before -> nth_error (before ++ x :: after) k = nth_error (before ++ y :: after) k.
Proof.
  intros Hk. destruct (Nat.lt_ge_cases k (length before)).
  - rewrite !nth_error_app1 by lia. reflexivity.
  - rewrite !nth_error_app2 by lia. destruct (k - length before)%nat eqn:E; [lia|reflexivity].
Qed.

Lemma reads_names c ts c' left b : reads c ts c' left b -> map f_name (c_flags c') = map f_name (c_flags c).
Proof. induction 1; try exact IHreads; [reflexivity|]. rewrite IHreads. cbn [c_flags]. rewrite H. rewrite !map_app. reflexivity. Qed.

(** A flag already given stays as it is. *)
Lemma reads_kept c ts c' left b : reads c ts c' left b -> forall k f, nth_error (c_flags c) k = Some f -> f_parsed f = true -> nth_error (c_flags c') k = Some f.
Proof.
  induction 1 as [c | c before g after vals rest c' left clash HF Hp Hl R IH | c rest c' left clash Hno R IH | c before a after w rest c' left clash Hno Hnh Ha Hb R IH | c w rest c' left clash Hno Hnh Hb R IH]; intros k f Hk Hf; try (exact (IH k f Hk Hf)); [exact Hk|].
  apply IH; [|exact Hf]. cbn [c_flags]. rewrite HF in Hk. rewrite <- Hk. apply nth_other. intros ->.
  rewrite nth_error_app2, Nat.sub_diag in Hk by lia. cbn in Hk. congruence.
Qed.

Lemma reads_flags c ts c' left b : reads c ts c' left b -> forall k f, nth_error (c_flags c) k = Some f ->
  nth_error (c_flags c') k = Some f \/
  (f_parsed f = false /\ exists before vals after, ts = before ++ f_name f :: vals ++ after /\ length vals = length (f_args f) /\ nth_error (c_flags c') k = Some (given f vals)).
Proof.
  induction 1 as [c | c before g after vals rest c' left clash HF Hp Hl R IH | c rest c' left clash Hno R IH | c before a after w rest c' left clash Hno Hnh Ha Hb R IH | c w rest c' left clash Hno Hnh Hb R IH]; intros k f Hk.
  - left. exact Hk.
  - destruct (Nat.eq_dec k (length before)) as [->|Hn].
    + right. rewrite HF, nth_error_app2, Nat.sub_diag in Hk by lia. cbn in Hk. injection Hk as ->. split; [exact Hp|].
      exists [], vals, rest. split; [reflexivity|]. split; [exact Hl|].
      apply (reads_kept _ _ _ _ _ R); [|reflexivity]. cbn [c_flags]. rewrite nth_error_app2, Nat.sub_diag by lia. reflexivity.
    + rewrite HF in Hk. rewrite (nth_other before g (given g vals) after k Hn) in Hk. destruct (IH k f Hk) as [Q|(Q1 & b2 & v2 & a2 & -> & Q3 & Q4)]; [left; exact Q|].
      right. split; [exact Q1|]. exists (f_name g :: vals ++ b2), v2, a2. split; [|auto]. cbn [app]. rewrite <- app_assoc. reflexivity.
  - destruct (IH k f Hk) as [Q|(Q1 & b2 & v2 & a2 & -> & Q3 & Q4)]; [left; exact Q|]. right. split; [exact Q1|]. exists ("--help"%string :: b2), v2, a2. auto.
  - destruct (IH k f Hk) as [Q|(Q1 & b2 & v2 & a2 & -> & Q3 & Q4)]; [left; exact Q|]. right. split; [exact Q1|]. exists (w :: b2), v2, a2. auto.
  - destruct (IH k f Hk) as [Q|(Q1 & b2 & v2 & a2 & -> & Q3 & Q4)]; [left; exact Q|]. right. split; [exact Q1|]. exists (w :: b2), v2, a2. auto.
Qed.

Lemma within_all : forall vals a b, within a b -> within a (vals ++ b).
Proof. induction vals; intros; cbn; [assumption|]. constructor. auto. Qed.

Lemma reads_args c ts c' left b : reads c ts c' left b -> exists pos, within pos ts /\ (c_nargs c' = c_nargs c + length pos)%nat /\ length (c_args c') = length (c_args c) /\
  forall k, (k < c_nargs c -> nth_error (c_args c') k = nth_error (c_args c) k)%nat /\
    (forall a v, nth_error (c_args c) (c_nargs c + k) = Some a -> nth_error pos k = Some v -> nth_error (c_args c') (c_nargs c + k) = Some (mk_item (it_name a) (Some v))) /\
    (forall a, nth_error (c_args c) k = Some a -> exists a', nth_error (c_args c') k = Some a' /\ it_name a' = it_name a).
Proof.
  induction 1 as [c | c before g after vals rest c' left clash HF Hp Hl R IH | c rest c' left clash Hno R IH | c before a after w rest c' left clash Hno Hnh Ha Hb R IH | c w rest c' left clash Hno Hnh Hb R IH].
  - exists []. split; [constructor|]. split; [cbn; lia|]. split; [reflexivity|]. intros k. split; [reflexivity|]. split; [|eauto]. intros a v _ Hv. destruct k; discriminate.
  - destruct IH as (pos & H1 & H2). exists pos. split; [|exact H2]. constructor. apply within_all. exact H1.
  - destruct IH as (pos & H1 & H2). exists pos. split; [|exact H2]. constructor. exact H1.
  - destruct IH as (pos & H1 & H2 & H3 & H4). cbn [c_nargs c_args] in *. exists (w :: pos). split; [constructor; exact H1|]. split; [cbn; lia|].
    split; [rewrite H3, Ha, !app_length; reflexivity|].
    intros k. split; [|split].
    + intros Hk. rewrite (proj1 (H4 k)) by lia. rewrite Ha. apply nth_other. lia.
    + intros x v Hx Hv. destruct k as [|k].
      * rewrite Nat.add_0_r in *. cbn in Hv. injection Hv as ->. rewrite (proj1 (H4 (c_nargs c))) by lia.
        rewrite <- Hb, nth_error_app2, Nat.sub_diag by lia. rewrite Ha, <- Hb, nth_error_app2, Nat.sub_diag in Hx by lia. cbn in *. congruence.
      * cbn in Hv. destruct (H4 k) as (_ & Q & _). replace (c_nargs c + S k)%nat with (S (c_nargs c) + k)%nat in * by lia. apply Q; [|exact Hv].
        rewrite <- Hx, Ha. apply nth_other. lia.
    + intros x Hx. destruct (Nat.eq_dec k (length before)) as [->|Hn].
      * destruct (H4 (length before)) as (_ & _ & Q). destruct (Q (mk_item (it_name a) (Some w))) as (a' & Q1 & Q2).
        { rewrite nth_error_app2, Nat.sub_diag by lia. reflexivity. }
        exists a'. split; [exact Q1|]. rewrite Q2. cbn. rewrite Ha, nth_error_app2, Nat.sub_diag in Hx by lia. cbn in Hx. congruence.
      * destruct (H4 k) as (_ & _ & Q). apply Q. rewrite <- Hx, Ha. apply nth_other. exact Hn.
  - destruct IH as (pos & H1 & H2). exists pos. split; [|exact H2]. constructor. exact H1.
Qed.

Lemma reads_left c ts c' left b : reads c ts c' left b -> within left ts.
Proof. induction 1; try (constructor; auto; fail). constructor. apply within_all. assumption. Qed.

Lemma find_named {A} (name : A -> string) : forall l k x, NoDup (map name l) -> nth_error l k = Some x -> find (fun y => String.eqb (name y) (name x)) l = Some x.
Proof.
  induction l as [|y l IH]; intros [|k] x HD Hk; try discriminate; cbn in Hk |- *.
  - injection Hk as ->. rewrite String.eqb_refl. reflexivity.
  - cbn in HD. inversion HD as [|? ? Hni HD']; subst. destruct (String.eqb_spec (name y) (name x)) as [E|E].
    + exfalso. apply Hni. rewrite E. apply in_map. exact (nth_error_In _ _ Hk).
    + exact (IH k x HD' Hk).
Qed.

Lemma find_fresh : forall l a, fresh l -> In a l -> exists a', find (fun y => String.eqb (it_name y) (it_name a)) l = Some a' /\ it_word a' = None.
Proof.
  induction l as [|y l IH]; intros a HF Hin; [destruct Hin|]. inversion HF; subst. cbn. destruct (String.eqb_spec (it_name y) (it_name a)) as [E|E]; [eauto|].
  destruct Hin as [->|Hin]; [congruence|]. apply IH; assumption.
Qed.

Lemma zip_names : forall args vals, length vals = length args -> map it_name (map (fun av => mk_item (it_name (fst av)) (Some (snd av))) (combine args vals)) = map it_name args.
Proof. induction args as [|a args IH]; intros [|v vals] H; try discriminate; cbn; [reflexivity|]. f_equal. apply IH. cbn in H. lia. Qed.

Lemma zip_nth : forall args vals k a v, nth_error args k = Some a -> nth_error vals k = Some v -> nth_error (map (fun av => mk_item (it_name (fst av)) (Some (snd av))) (combine args vals)) k = Some (mk_item (it_name a) (Some v)).
Proof. induction args as [|b args IH]; intros [|w vals] [|k] a v Ha Hv; try discriminate; cbn in *; [congruence|]. exact (IH vals k a v Ha Hv). Qed.

Lemma got_flags_w c prog ts l c' l' f : reachable c -> distinct_flags c -> holds (prog :: ts) l -> parse c l = Ok (Some (true, c', l')) -> In f (c_flags c) -> f_parsed f = false ->
  (parsed c' (f_name f) = false /\ forall a, In a (f_args f) -> get_flag_arg c' (f_name f) (it_name a) = Ok None) \/
  (parsed c' (f_name f) = true /\ exists before vals after, ts = before ++ f_name f :: vals ++ after /\ length vals = length (f_args f) /\
     (NoDup (map it_name (f_args f)) -> forall k a v, nth_error (f_args f) k = Some a -> nth_error vals k = Some v -> get_flag_arg c' (f_name f) (it_name a) = Ok (Some v))).
Proof.
  intros H HD HL HP Hin Hf.
  destruct (parse_reads_w c prog ts l H HD HL) as [(c0 & l0 & E & Hn)|(c0 & left0 & l0 & E & Hh & Hi)]; [congruence|].
  rewrite E in HP. injection HP as -> ->. destruct (proj2 (Hi c' left0) (conj eq_refl eq_refl)) as [R _].
  assert (HD' : NoDup (map f_name (c_flags c'))) by (rewrite (reads_names _ _ _ _ _ R); exact HD).
  destruct (In_nth_error _ _ Hin) as [k Hk].
  unfold parsed, get_flag_arg.
  destruct (reads_flags _ _ _ _ _ R k f Hk) as [Q|(Q1 & b2 & v2 & a2 & -> & Q3 & Q4)].
  - left. rewrite (find_named f_name _ _ _ HD' Q). split; [exact Hf|]. intros a Ha.
    destruct (reachable_wf c H) as (HF & _). unfold flags_wf in HF. rewrite Forall_forall in HF.
    destruct (find_fresh _ _ (HF f Hin Hf) Ha) as (a' & -> & ->). reflexivity.
  - right. assert (Q5 := find_named f_name _ _ _ HD' Q4). cbn [given f_name] in Q5. rewrite Q5. split; [reflexivity|].
    exists b2, v2, a2. split; [reflexivity|]. split; [exact Q3|]. intros HDa j a v Ha Hv. cbn [given f_args].
    assert (Z := find_named it_name _ _ _ ltac:(rewrite zip_names; [exact HDa|exact Q3]) (zip_nth _ _ _ _ _ Ha Hv)). cbn [it_name] in Z. rewrite Z. reflexivity.
Qed.

Lemma nodup_ext {A} (l m : list A) : l = m -> NoDup l -> NoDup m.
Proof. intros ->. auto. Qed.

Lemma got_args_w c prog ts l c' l' : reachable c -> distinct_flags c -> holds (prog :: ts) l -> parse c l = Ok (Some (true, c', l')) ->
  exists pos left, within pos ts /\ within left ts /\ holds (prog :: left) l' /\ (c_nargs c + length pos = length (c_args c))%nat /\
  (NoDup (map it_name (c_args c)) -> forall k a v, nth_error (c_args c) (c_nargs c + k) = Some a -> nth_error pos k = Some v -> get_arg c' (it_name a) = Ok (Some v)).
Proof.
  intros H HD HL HP.
  destruct (parse_reads_w c prog ts l H HD HL) as [(c0 & l0 & E & Hn)|(c0 & left0 & l0 & E & Hh & Hi)]; [congruence|].
  rewrite E in HP. injection HP as -> ->. destruct (proj2 (Hi c' left0) (conj eq_refl eq_refl)) as [R Rn].
  destruct (reads_args _ _ _ _ _ R) as (pos & H1 & H2 & H3 & H4). exists pos, left0.
  split; [exact H1|]. split; [exact (reads_left _ _ _ _ _ R)|]. split; [exact Hh|]. split; [lia|].
  intros HDa k a v Ha Hv. destruct (H4 k) as (_ & Q & _). specialize (Q a v Ha Hv). unfold get_arg.
  assert (HDa' : NoDup (map it_name (c_args c'))).
  { refine (nodup_ext _ _ _ HDa). apply list_eq_nth. intros j. rewrite !nth_error_map.
    destruct (nth_error (c_args c) j) as [x|] eqn:Ex.
    - destruct (H4 j) as (_ & _ & Z). destruct (Z x Ex) as (x' & Z1 & Z2). rewrite Z1. cbn. congruence.
    - apply nth_error_None in Ex. rewrite <- H3 in Ex. apply nth_error_None in Ex. rewrite Ex. reflexivity. }
  assert (Z := find_named it_name _ _ _ HDa' Q). cbn [it_name] in Z. rewrite Z. reflexivity.
Qed.
