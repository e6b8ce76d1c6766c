(** Proofs for C82: the whole line. *)
From Coq Require Import String Lia.
From Verif Require Import Prelude M_CmdLine S_CmdLine P_CmdLine1.
Local Open Scope Z_scope.

Definition cmd_wf (c : cmd) : Prop := flags_wf (c_flags c) /\ (c_nargs c <= length (c_args c))%nat /\ fresh (skipn (c_nargs c) (c_args c)).

Lemma list_set_mid {A} : forall (before : list A) a after v, list_set (before ++ a :: after) (length before) v = before ++ v :: after.
Proof. induction before as [|b before IH]; intros; cbn; [reflexivity|]. rewrite IH. reflexivity. Qed.

Lemma skipn_mid {A} : forall (before : list A) l, skipn (length before) (before ++ l) = l.
Proof. induction before; intros; cbn; auto. Qed.

Lemma skipn_mid_S {A} (before : list A) a l : skipn (S (length before)) (before ++ a :: l) = l.
Proof. replace (before ++ a :: l) with ((before ++ [a]) ++ l) by (rewrite <- app_assoc; reflexivity). replace (S (length before)) with (length (before ++ [a])) by (rewrite app_length; cbn; lia). apply skipn_mid. Qed.

Lemma at_step pre t ts junk : at_line pre (t :: ts) junk = at_line (pre ++ [Some t]) ts junk.
Proof. unfold at_line. rewrite zlen_cons, zlen_app, zlen_cons, zlen_nil. rewrite <- app_assoc. cbn [map app]. f_equal. lia. Qed.

Lemma len_step (pre : list (option string)) t : zlen (pre ++ [Some t]) = zlen pre + 1.
Proof. rewrite zlen_app, zlen_cons, zlen_nil. lia. Qed.

Lemma reads_help_inv c ts c' left : reads c ("--help"%string :: ts) c' left false -> no_flag c "--help" ->
  exists left1, left = "--help"%string :: left1 /\ reads (mk_cmd (c_args c) (c_flags c) (c_nargs c) true) ts c' left1 false.
Proof.
  intros H HN. remember ("--help"%string :: ts) as w eqn:Hw. remember false as z eqn:Hz in H.
  destruct H as [c | c before0 f0 after0 vals rest c' left clash HF0 Hp0 Hl0 R0 | c rest c' left clash Hno R0 | c before0 a after0 w0 rest c' left clash Hno Hnh Ha Hb R0 | c w0 rest c' left clash Hno Hnh Hb R0].
  - discriminate.
  - injection Hw as Hw1 Hw2. exfalso. apply (HN f0); [rewrite HF0; apply in_elt|exact Hw1].
  - injection Hw as Hw2. subst. eauto.
  - injection Hw as Hw1 Hw2. congruence.
  - injection Hw as Hw1 Hw2. congruence.
Qed.

Lemma reads_arg_inv c t ts c' left before a after : reads c (t :: ts) c' left false -> no_flag c t -> t <> "--help"%string -> c_args c = before ++ a :: after -> length before = c_nargs c ->
  reads (mk_cmd (before ++ mk_item (it_name a) (Some t) :: after) (c_flags c) (S (c_nargs c)) (c_help c)) ts c' left false.
Proof.
  intros H HN Hh HA HB. remember (t :: ts) as w eqn:Hw. remember false as z eqn:Hz in H.
  destruct H as [c | c before0 f0 after0 vals rest c' left clash HF0 Hp0 Hl0 R0 | c rest c' left clash Hno R0 | c before0 a0 after0 w0 rest c' left clash Hno Hnh Ha Hb R0 | c w0 rest c' left clash Hno Hnh Hb R0].
  - discriminate.
  - injection Hw as Hw1 Hw2. exfalso. apply (HN f0); [rewrite HF0; apply in_elt|exact Hw1].
  - injection Hw as Hw1 Hw2. congruence.
  - injection Hw as Hw1 Hw2. subst w0 rest clash. rewrite HA in Ha.
    assert (E : before0 = before /\ a0 = a /\ after0 = after).
    { assert (L : length before0 = length before) by congruence. clear - L Ha. revert before0 L Ha.
      induction before as [|b before IH]; intros [|b0 before0] L Ha; try discriminate; cbn in Ha; injection Ha as Ha1 Ha2; subst; [auto|].
      destruct (IH before0) as (-> & -> & ->); auto. }
    destruct E as (-> & -> & ->). exact R0.
  - exfalso. rewrite HA, app_length in Hb. cbn in Hb. lia.
Qed.

Lemma reads_other_inv c t ts c' left : reads c (t :: ts) c' left false -> no_flag c t -> t <> "--help"%string -> c_nargs c = length (c_args c) ->
  exists left1, left = t :: left1 /\ reads c ts c' left1 false.
Proof.
  intros H HN Hh HA. remember (t :: ts) as w eqn:Hw. remember false as z eqn:Hz in H.
  destruct H as [c | c before0 f0 after0 vals rest c' left clash HF0 Hp0 Hl0 R0 | c rest c' left clash Hno R0 | c before0 a0 after0 w0 rest c' left clash Hno Hnh Ha Hb R0 | c w0 rest c' left clash Hno Hnh Hb R0].
  - discriminate.
  - injection Hw as Hw1 Hw2. exfalso. apply (HN f0); [rewrite HF0; apply in_elt|exact Hw1].
  - injection Hw as Hw1 Hw2. congruence.
  - exfalso. rewrite Ha, app_length in HA. cbn in HA. lia.
  - injection Hw as Hw1 Hw2. subst. eauto.
Qed.

Definition read_all (c : cmd) (ts : list string) (c' : cmd) (left : list string) : Prop := reads c ts c' left false /\ c_nargs c' = length (c_args c').

Lemma loop_at : forall fuel c pre ts junk, cmd_wf c -> (length ts < fuel)%nat ->
  exists ok c' l', parse_loop fuel c (at_line pre ts junk) (zlen pre) = Ok (Some (ok, c', l')) /\ cmd_wf c' /\ map f_name (c_flags c') = map f_name (c_flags c) /\
  (ok = true -> exists left junk', l' = at_line (pre ++ map Some left) [] junk' /\
     (distinct_flags c -> forall c'' left'', read_all c ts c'' left'' <-> c'' = c' /\ left'' = left)) /\
  (ok = false -> distinct_flags c -> forall c'' left'', ~ read_all c ts c'' left'').
Proof.
  induction fuel as [|fuel IH]; intros c pre ts junk HW HL; [lia|].
  destruct HW as (HF & HN & HA).
  cbn [parse_loop]. destruct ts as [|t ts].
  - assert (Ez : fst (at_line pre [] junk) = zlen pre) by (unfold at_line; cbn [fst]; rewrite zlen_nil; apply Z.add_0_r).
    rewrite Ez, Z.ltb_irrefl.
    assert (HR : forall c'' left'', read_all c [] c'' left'' <-> (c'' = c /\ left'' = [] /\ c_nargs c = length (c_args c))).
    { intros c'' left''. split.
      - intros [R E]. inversion R; subst. auto.
      - intros (-> & -> & E). split; [constructor|exact E]. }
    eexists _, _, _. split; [reflexivity|]. split; [exact (conj HF (conj HN HA))|]. split; [reflexivity|].
    destruct (Nat.ltb_spec (c_nargs c) (length (c_args c))); cbn [negb]; (split; [intros Hk|intros Hk]); try discriminate.
    + intros _ c'' left'' R. apply HR in R. lia.
    + exists [], junk. split; [cbn [map]; rewrite app_nil_r; reflexivity|]. intros _ c'' left''. rewrite HR. split; [tauto|]. intros [-> ->]. split; [reflexivity|]. split; [reflexivity|]. lia.
  - assert (Ez : fst (at_line pre (t :: ts) junk) = zlen pre + (zlen ts + 1)) by (unfold at_line; cbn [fst]; rewrite zlen_cons; reflexivity).
    rewrite Ez. destruct (Z.ltb_spec (zlen pre) (zlen pre + (zlen ts + 1))) as [_|Hbad]; [|pose proof (zlen_nonneg ts); lia]. clear Ez.
    destruct (flags_at (c_flags c) pre t ts junk (last (t :: ts) t) HF (last_d _ _ _ _)) as (ok & b & fs' & l' & H1 & H2 & H3 & H4 & H5).
    rewrite H1. cbn [bind].
    assert (Hc : with_flags c ([] ++ c_flags c) = c) by (destruct c; reflexivity).
    destruct ok; cbn [negb].
    + destruct (H4 eq_refl) as (ts' & junk' & Hl' & Hb & Hiff).
      specialize (Hiff c []). cbn [app] in Hiff, Hc.
      destruct b.
      * subst l'. destruct (IH (with_flags c fs') pre ts' junk') as (ok & c' & l' & R1 & R2 & R3 & R4 & R5).
        { exact (conj H2 (conj HN HA)). }
        { cbn [length] in HL. lia. }
        unfold with_flags in R1. rewrite R1. exists ok, c', l'. split; [reflexivity|]. split; [exact R2|]. split; [rewrite R3; exact H3|].
        assert (HD : distinct_flags c -> distinct_flags (with_flags c fs')) by (unfold distinct_flags; cbn; rewrite H3; auto).
        assert (Hra : distinct_flags c -> forall c'' left'', read_all c (t :: ts) c'' left'' <-> read_all (with_flags c fs') ts' c'' left'').
        { intros Hd c'' left''. unfold read_all. specialize (Hiff c'' left'' Hd). rewrite Hc in Hiff. rewrite Hiff. reflexivity. }
        split.
        -- intros Hok. destruct (R4 Hok) as (left & j & E1 & E2). exists left, j. split; [exact E1|]. intros Hd c'' left''. rewrite (Hra Hd). apply E2. auto.
        -- intros Hok Hd c'' left''. rewrite (Hra Hd). apply R5; auto.
      * destruct Hb as (-> & -> & Hl2 & Hno). rewrite Hl2. rewrite word_at. cbn [bind]. cbn [c_args c_nargs c_help c_flags].
        assert (HNF : no_flag c t) by exact Hno.
        destruct (String.eqb_spec "--help" t) as [Eh|Eh].
        -- rewrite at_step, <- (len_step pre t).
           destruct (IH (mk_cmd (c_args c) (c_flags c) (c_nargs c) true) (pre ++ [Some t]) ts junk) as (ok & c' & l2 & R1 & R2 & R3 & R4 & R5).
           { exact (conj HF (conj HN HA)). }
           { cbn [length] in HL. lia. }
           rewrite R1. exists ok, c', l2. split; [reflexivity|]. split; [exact R2|]. split; [exact R3|]. split.
           ++ intros Hok. destruct (R4 Hok) as (left & j & E1 & E2). exists (t :: left), j. split.
              { rewrite E1. cbn [map]. rewrite <- app_assoc. reflexivity. }
              intros Hd c'' left''. subst t. split.
              ** intros [Q Qn]. destruct (reads_help_inv _ _ _ _ Q HNF) as (left1 & -> & Q1). destruct (proj1 (E2 Hd c'' left1) (conj Q1 Qn)) as [-> ->]. auto.
              ** intros [-> ->]. destruct (proj2 (E2 Hd c' left) (conj eq_refl eq_refl)) as [Q Qn]. split; [|exact Qn]. apply reads_help; assumption.
           ++ intros Hok Hd c'' left'' [Q Qn]. subst t. destruct (reads_help_inv _ _ _ _ Q HNF) as (left1 & -> & Q1). exact (R5 Hok Hd c'' left1 (conj Q1 Qn)).
        -- assert (Eh' : t <> "--help"%string) by congruence.
           destruct (nth_error (c_args c) (c_nargs c)) as [a|] eqn:En.
           ++ destruct (nth_error_split _ _ En) as (before & after & Eargs & Elen).
              assert (Ha : it_word a = None).
              { rewrite Eargs, <- Elen, skipn_mid in HA. inversion HA; assumption. }
              unfold item_parse, it_parsed. rewrite Ha. rewrite word_at. cbn [bind]. rewrite shift_at. cbn [bind].
              rewrite Eargs. rewrite <- Elen. rewrite list_set_mid.
              destruct (IH (mk_cmd (before ++ mk_item (it_name a) (Some t) :: after) (c_flags c) (S (length before)) (c_help c)) pre ts (Some (last ts t) :: junk)) as (ok & c' & l2 & R1 & R2 & R3 & R4 & R5).
              { split; [exact HF|]. cbn [c_nargs c_args]. split; [rewrite app_length; cbn; lia|].
                rewrite skipn_mid_S. rewrite Eargs, <- Elen, skipn_mid in HA. inversion HA; assumption. }
              { cbn [length] in HL. lia. }
              rewrite R1. exists ok, c', l2. split; [reflexivity|]. split; [exact R2|]. split; [exact R3|]. split.
              ** intros Hok. destruct (R4 Hok) as (left & j & E1 & E2). exists left, j. split; [exact E1|].
                 intros Hd c'' left''. rewrite <- (E2 Hd c'' left''). split; intros [Q Qn]; split; try exact Qn.
                 { rewrite Elen. exact (reads_arg_inv _ _ _ _ _ _ _ _ Q HNF Eh' Eargs Elen). }
                 { rewrite Elen in Q. exact (reads_arg _ _ _ _ _ _ _ _ _ HNF Eh' Eargs Elen Q). }
              ** intros Hok Hd c'' left'' [Q Qn]. apply (R5 Hok Hd c'' left''). split; [|exact Qn]. rewrite Elen. exact (reads_arg_inv _ _ _ _ _ _ _ _ Q HNF Eh' Eargs Elen).
           ++ apply nth_error_None in En. assert (En' : c_nargs c = length (c_args c)) by lia.
              rewrite at_step, <- (len_step pre t).
              replace (mk_cmd (c_args c) (c_flags c) (c_nargs c) (c_help c)) with c by (destruct c; reflexivity).
              destruct (IH c (pre ++ [Some t]) ts junk (conj HF (conj HN HA))) as (ok & c' & l2 & R1 & R2 & R3 & R4 & R5).
              { cbn [length] in HL. lia. }
              rewrite R1. exists ok, c', l2. split; [reflexivity|]. split; [exact R2|]. split; [exact R3|]. split.
              ** intros Hok. destruct (R4 Hok) as (left & j & E1 & E2). exists (t :: left), j. split.
                 { rewrite E1. cbn [map]. rewrite <- app_assoc. reflexivity. }
                 intros Hd c'' left''. split.
                 { intros [Q Qn]. destruct (reads_other_inv _ _ _ _ _ Q HNF Eh' En') as (left1 & -> & Q1). destruct (proj1 (E2 Hd c'' left1) (conj Q1 Qn)) as [-> ->]. auto. }
                 { intros [-> ->]. destruct (proj2 (E2 Hd c' left) (conj eq_refl eq_refl)) as [Q Qn]. split; [|exact Qn]. apply reads_other; assumption. }
              ** intros Hok Hd c'' left'' [Q Qn]. destruct (reads_other_inv _ _ _ _ _ Q HNF Eh' En') as (left1 & -> & Q1). exact (R5 Hok Hd c'' left1 (conj Q1 Qn)).
    + eexists false, _, l'. split; [reflexivity|]. split; [exact (conj H2 (conj HN HA))|]. split; [exact H3|]. split; [discriminate|].
      intros _ Hd c'' left'' [Q _]. specialize (H5 eq_refl c [] c'' left'' Hd). cbn [app] in H5, Hc. rewrite Hc in H5. exact (H5 Q).
Qed.

Lemma parse_at c prog ts l : cmd_wf c -> holds (prog :: ts) l ->
  exists ok c' l', parse c l = Ok (Some (ok, c', l')) /\ cmd_wf c' /\ map f_name (c_flags c') = map f_name (c_flags c) /\
  (ok = true -> exists left, holds (prog :: left) l' /\
     (distinct_flags c -> forall c'' left'', read_all c ts c'' left'' <-> c'' = c' /\ left'' = left)) /\
  (ok = false -> distinct_flags c -> forall c'' left'', ~ read_all c ts c'' left'').
Proof.
  intros HW [HL [junk HJ]]. destruct l as [argc argv]. cbn [fst snd] in *. subst.
  assert (E : (zlen (prog :: ts), map Some (prog :: ts) ++ junk) = at_line [Some prog] ts junk).
  { unfold at_line. rewrite !zlen_cons, zlen_nil. cbn [map app]. f_equal. lia. }
  rewrite E. unfold parse.
  assert (Ef : fst (at_line [Some prog] ts junk) = zlen ts + 1) by (unfold at_line; cbn [fst]; rewrite zlen_cons, zlen_nil; lia).
  rewrite Ef.
  destruct (loop_at (S (Z.to_nat (zlen ts + 1))) c [Some prog] ts junk HW) as (ok & c' & l' & R1 & R2 & R3 & R4 & R5).
  { unfold zlen. lia. }
  change (zlen [Some prog]) with 1 in R1. rewrite R1. exists ok, c', l'. split; [reflexivity|]. split; [exact R2|]. split; [exact R3|]. split; [|exact R5].
  intros Hok. destruct (R4 Hok) as (left & j & E1 & E2). exists left. split; [|exact E2].
  rewrite E1. split.
  - unfold at_line. cbn [fst]. rewrite zlen_nil, zlen_app, zlen_map, !zlen_cons, zlen_nil. lia.
  - exists j. unfold at_line. cbn [snd map app]. reflexivity.
Qed.

Lemma parse_empty c l : holds [] l -> exists ok, parse c l = Ok (Some (ok, c, l)).
Proof. intros [H _]. rewrite zlen_nil in H. unfold parse. rewrite H. cbn [Z.to_nat parse_loop]. rewrite H. cbn. eauto. Qed.

Lemma list_set_forall {A} (P : A -> Prop) : forall l n v, Forall P l -> P v -> Forall P (list_set l n v).
Proof. induction l as [|x l IH]; intros [|n] v H Hv; inversion H; subst; cbn; constructor; auto. Qed.

Lemma reachable_wf c : reachable c -> cmd_wf c.
Proof.
  induction 1 as [|c name H IH|c name H IH|c k name H IH|c words l ok c' l' H IH HL HP].
  - split; [constructor|]. split; [cbn; lia|constructor].
  - destruct IH as (H1 & H2 & H3). split; [|exact (conj H2 H3)]. unfold add_flag, flags_wf. cbn. apply Forall_app. split; [exact H1|]. constructor; [|constructor]. intros _. constructor.
  - destruct IH as (H1 & H2 & H3). split; [exact H1|]. cbn. split; [rewrite app_length; lia|]. rewrite skipn_app. apply Forall_app. split; [exact H3|].
    replace (c_nargs c - length (c_args c))%nat with 0%nat by lia. constructor; [reflexivity|constructor].
  - unfold add_flag_arg. destruct (nth_error (c_flags c) k) as [f|] eqn:E; [|exact IH]. destruct IH as (H1 & H2 & H3). split; [|exact (conj H2 H3)].
    cbn. apply list_set_forall; [exact H1|]. intros Hp. cbn in *. apply Forall_app. split; [|constructor; [reflexivity|constructor]].
    unfold flags_wf in H1. rewrite Forall_forall in H1. exact (H1 f (nth_error_In _ _ E) Hp).
  - destruct words as [|prog ts].
    + destruct (parse_empty c l HL) as [ok0 E]. rewrite E in HP. inversion HP; subst. exact IH.
    + destruct (parse_at c prog ts l IH HL) as (ok0 & c0 & l0 & E & Hwf & _). rewrite E in HP. inversion HP; subst. exact Hwf.
Qed.

Lemma parse_defined_w c words l : reachable c -> holds words l -> exists o, parse c l = Ok (Some o).
Proof.
  intros H HL. destruct words as [|prog ts].
  - destruct (parse_empty c l HL) as [ok E]. eauto.
  - destruct (parse_at c prog ts l (reachable_wf c H) HL) as (ok0 & c0 & l0 & E & _). eauto.
Qed.

Lemma parse_reads_w c prog ts l : reachable c -> distinct_flags c -> holds (prog :: ts) l ->
  (exists c' l', parse c l = Ok (Some (false, c', l')) /\ (forall c'' left, ~ read_all c ts c'' left)) \/
  (exists c' left l', parse c l = Ok (Some (true, c', l')) /\ holds (prog :: left) l' /\ (forall c'' left'', read_all c ts c'' left'' <-> c'' = c' /\ left'' = left)).
Proof.
  intros H HD HL. destruct (parse_at c prog ts l (reachable_wf c H) HL) as (ok & c' & l' & E & _ & _ & H1 & H2).
  destruct ok; [right|left].
  - destruct (H1 eq_refl) as (left & Hh & Hi). exists c', left, l'. split; [exact E|]. split; [exact Hh|exact (Hi HD)].
  - exists c', l'. split; [exact E|]. exact (H2 eq_refl HD).
Qed.

Lemma parse_iff_w c prog ts l : reachable c -> distinct_flags c -> holds (prog :: ts) l -> forall c' left,
  ((exists l', parse c l = Ok (Some (true, c', l')) /\ holds (prog :: left) l') <-> reads c ts c' left false /\ c_nargs c' = length (c_args c')).
Proof.
  intros H HD HL c' left. destruct (parse_reads_w c prog ts l H HD HL) as [(c0 & l0 & E & Hn)|(c0 & left0 & l0 & E & Hh & Hi)].
  - split; [intros (l' & E' & _); congruence|]. intros R. exfalso. exact (Hn c' left R).
  - split.
    + intros (l' & E' & Hh'). rewrite E in E'. injection E' as -> ->. apply Hi. split; [reflexivity|].
      destruct Hh as [Hz [j Hj]], Hh' as [Hz' [j' Hj']].
      assert (L : length left = length left0) by (unfold zlen in *; cbn in *; lia).
      rewrite Hj in Hj'. cbn [map app] in Hj'. injection Hj' as Hj'. clear - L Hj'. revert left0 L Hj'.
      induction left as [|x left IH]; intros [|y left0] L Hj'; try discriminate; [reflexivity|]. cbn in Hj'. injection Hj' as -> Hj'. f_equal. apply IH; auto.
    + intros R. destruct (proj1 (Hi c' left) R) as [-> ->]. eauto.
Qed.

Lemma parse_fails_w c prog ts l : reachable c -> distinct_flags c -> holds (prog :: ts) l ->
  (exists c' l', parse c l = Ok (Some (false, c', l'))) <-> ~ exists c' left, reads c ts c' left false /\ c_nargs c' = length (c_args c').
Proof.
  intros H HD HL. destruct (parse_reads_w c prog ts l H HD HL) as [(c0 & l0 & E & Hn)|(c0 & left0 & l0 & E & Hh & Hi)].
  - split; [|eauto]. intros _ (c' & left & R). exact (Hn _ _ R).
  - split; [intros (c' & l' & E'); congruence|]. intros Hn. exfalso. apply Hn. exists c0, left0. apply Hi. auto.
Qed.

Lemma parse_final_w c prog ts l : reachable c -> distinct_flags c -> holds (prog :: ts) l -> forall c',
  (exists l', parse_final c l = Ok (Some (true, c', l'))) <-> reads c ts c' [] false /\ c_nargs c' = length (c_args c') /\ c_help c' = false.
Proof.
  intros H HD HL c'. unfold parse_final. destruct (parse_reads_w c prog ts l H HD HL) as [(c0 & l0 & E & Hn)|(c0 & left0 & l0 & E & Hh & Hi)]; rewrite E; cbn [bind].
  - split; [intros (l' & E'); discriminate|]. intros (R1 & R2 & _). exfalso. exact (Hn _ _ (conj R1 R2)).
  - destruct Hh as [Hz _]. rewrite Hz, zlen_cons. split.
    + intros (l' & E'). injection E' as E1 E2 E3. cbn [andb] in E1. apply andb_prop in E1. destruct E1 as [E1 E4]. apply Z.eqb_eq in E4.
      assert (left0 = []) by (destruct left0; [reflexivity|rewrite zlen_cons in E4; pose proof (zlen_nonneg left0); lia]). subst.
      destruct (proj2 (Hi c' []) (conj eq_refl eq_refl)) as [R1 R2]. split; [exact R1|]. split; [exact R2|]. destruct (c_help c'); [discriminate|reflexivity].
    + intros (R1 & R2 & R3). destruct (proj1 (Hi c' []) (conj R1 R2)) as [-> <-]. rewrite R3, zlen_nil. cbn. eauto.
Qed.
