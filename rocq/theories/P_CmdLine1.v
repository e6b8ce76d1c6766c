(** Proofs for C82: one pass over the flags. *)
From Coq Require Import String Lia.
From Verif Require Import Prelude M_CmdLine S_CmdLine.
Local Open Scope Z_scope.

Definition at_line (pre : list (option string)) (ts : list string) (junk : list (option string)) : line :=
  (zlen pre + zlen ts, pre ++ map Some ts ++ junk).

Lemma zget_mid {A} (pre : list A) x l : zget (pre ++ x :: l) (zlen pre) = Ok x.
Proof.
  unfold zlen. apply zget_nat. rewrite nth_error_app2 by lia. rewrite Nat.sub_diag. reflexivity.
Qed.

Lemma zset_mid {A} (pre : list A) x l v : zset (pre ++ x :: l) (zlen pre) v = Ok (pre ++ v :: l).
Proof.
  destruct (zset_in_range (pre ++ x :: l) (zlen pre) v) as [r Hr].
  { rewrite zlen_app, zlen_cons. pose proof (zlen_nonneg pre). pose proof (zlen_nonneg l). lia. }
  rewrite Hr. f_equal. apply list_eq_zget.
  - rewrite (zset_zlen _ _ _ _ Hr). rewrite !zlen_app, !zlen_cons. reflexivity.
  - intros i Hi. rewrite (zset_zlen _ _ _ _ Hr) in Hi. destruct (Z.eq_dec i (zlen pre)) as [->|Hn].
    + rewrite (zset_get_eq _ _ _ _ Hr). rewrite zget_mid. reflexivity.
    + rewrite (zset_get_ne _ _ _ _ _ Hr) by congruence.
      destruct (Z_lt_le_dec i (zlen pre)).
      * rewrite !zget_app_l by lia. reflexivity.
      * rewrite !zget_app_r by lia. rewrite zlen_app, zlen_cons in Hi.
        replace (i - zlen pre) with (Z.of_nat (S (Z.to_nat (i - zlen pre - 1)))) by lia.
        unfold zget. destruct (Z.ltb_spec (Z.of_nat (S (Z.to_nat (i - zlen pre - 1)))) 0); [lia|].
        rewrite Nat2Z.id. reflexivity.
Qed.

Lemma last_d {A} : forall (l : list A) x d e, last (x :: l) d = last (x :: l) e.
Proof. induction l as [|y l IH]; intros; [reflexivity|]. change (last (y :: l) d = last (y :: l) e). apply IH. Qed.

Lemma last_cons {A} (l : list A) x d : last (x :: l) d = last l x.
Proof. destruct l as [|y l]; [reflexivity|]. change (last (y :: l) d = last (y :: l) x). apply last_d. Qed.

Lemma shift_gen : forall (l : list (option string)) pre t junk,
  foldM (fun v j => x <- zget v (j + 1) ;; zset v j x) (zfromto (zlen pre) (zlen pre + zlen l)) (pre ++ (t :: l) ++ junk)
  = Ok (pre ++ l ++ last (t :: l) t :: junk).
Proof.
  induction l as [|x l IH]; intros pre t junk.
  - rewrite zfromto_nil by (rewrite zlen_nil; lia). reflexivity.
  - rewrite zfromto_cons by (rewrite zlen_cons; pose proof (zlen_nonneg l); lia).
    cbn [foldM]. 
    replace (pre ++ (t :: x :: l) ++ junk) with ((pre ++ [t]) ++ x :: l ++ junk) by (rewrite <- app_assoc; reflexivity).
    replace (zlen pre + 1) with (zlen (pre ++ [t])) at 1 by (rewrite zlen_app, zlen_cons, zlen_nil; lia).
    rewrite zget_mid. cbn [bind]. rewrite <- app_assoc. cbn [app]. rewrite zset_mid. cbn [bind].
    replace (pre ++ x :: x :: l ++ junk) with ((pre ++ [x]) ++ (x :: l) ++ junk) by (rewrite <- app_assoc; reflexivity).
    replace (zlen pre + 1) with (zlen (pre ++ [x])) by (rewrite zlen_app, zlen_cons, zlen_nil; lia).
    replace (zlen pre + zlen (x :: l)) with (zlen (pre ++ [x]) + zlen l) by (rewrite zlen_app, !zlen_cons, zlen_nil; lia).
    rewrite IH. rewrite <- app_assoc. cbn [app]. rewrite !last_cons. reflexivity.
Qed.

Lemma last_app2 {A} : forall (l m : list A) d, last (l ++ m) d = last m (last l d).
Proof.
  induction l as [|x l IH]; intros m d; [reflexivity|].
  cbn [app]. rewrite !last_cons. apply IH.
Qed.

Lemma last_some : forall (ts : list string) t, last (map Some ts) (Some t) = Some (last ts t).
Proof. induction ts as [|x l IH]; intros t; [reflexivity|]. cbn [map]. rewrite !last_cons. apply IH. Qed.

Lemma shift_at pre t ts junk : shift (at_line pre (t :: ts) junk) (zlen pre) = Ok (at_line pre ts (Some (last ts t) :: junk)).
Proof.
  unfold shift, at_line. cbn [fst snd map]. rewrite zlen_cons.
  replace (zlen pre + (zlen ts + 1) - 1) with (zlen pre + zlen (map (@Some string) ts)) by (rewrite zlen_map; lia).
  rewrite shift_gen. cbn [bind]. rewrite zlen_map, last_cons, last_some. reflexivity.
Qed.

Lemma shift_none pre junk : shift (at_line pre [] junk) (zlen pre) = Ok (zlen pre - 1, pre ++ junk).
Proof.
  unfold shift, at_line. cbn [fst snd map app]. rewrite zlen_nil. rewrite zfromto_nil by lia. cbn [foldM bind]. f_equal. f_equal. lia.
Qed.

Lemma word_at pre t ts junk : word (at_line pre (t :: ts) junk) (zlen pre) = Ok t.
Proof. unfold word, at_line. cbn [snd map app]. rewrite zget_mid. reflexivity. Qed.

Lemma word_stale pre s junk : word (at_line pre [] (Some s :: junk)) (zlen pre) = Ok s.
Proof. unfold word, at_line. cbn [snd map app]. rewrite zget_mid. reflexivity. Qed.

Definition fresh (args : list item) : Prop := Forall (fun a => it_word a = None) args.

Lemma items_at : forall args vals pre rest junk s, fresh args -> length vals = length args -> last (vals ++ rest) s = s ->
  exists junk', items_parse args (at_line pre (vals ++ rest) (Some s :: junk)) (zlen pre)
    = Ok (true, map (fun av => mk_item (it_name (fst av)) (Some (snd av))) (combine args vals), at_line pre rest (Some s :: junk')).
Proof.
  induction args as [|a args IH]; intros vals pre rest junk s HF HL HS; destruct vals as [|v vals]; try discriminate.
  - exists junk. reflexivity.
  - inversion HF as [|? ? Ha HF']; subst. cbn [items_parse]. unfold item_parse, it_parsed. rewrite Ha. cbn [app]. rewrite word_at. cbn [bind].
    rewrite shift_at. cbn [bind]. cbn [app] in HS. rewrite last_cons in HS.
    assert (HS1 : last (vals ++ rest) v = s) by exact HS. rewrite HS1.
    assert (HS2 : last (vals ++ rest) s = s). { destruct (vals ++ rest) as [|y l]; [reflexivity|]. rewrite (last_d _ _ s v). exact HS1. }
    destruct (IH vals pre rest (Some s :: junk) s HF' ltac:(cbn in HL; lia) HS2) as [j Hj].
    rewrite Hj. cbn [bind]. exists j. reflexivity.
Qed.

Definition flag_wf (f : flag) : Prop := f_parsed f = false -> fresh (f_args f).
Definition flags_wf (fs : list flag) : Prop := Forall flag_wf fs.

(** Parsing one flag whose name is at the front. *)
Lemma flag_at f pre t ts junk s : flag_wf f -> last (t :: ts) s = s ->
  exists ok f' l', flag_parse f (at_line pre (t :: ts) junk) (zlen pre) = Ok (ok, f', l') /\ flag_wf f' /\ f_name f' = f_name f /\
  (ok = true -> f_parsed f = false /\ exists vals rest junk', ts = vals ++ rest /\ length vals = length (f_args f) /\ f' = given f vals /\ l' = at_line pre rest (Some s :: junk')) /\
  (ok = false -> f_parsed f = true \/ (length ts < length (f_args f))%nat).
Proof.
  intros HW HS. unfold flag_parse. destruct (f_parsed f) eqn:Ef.
  - exists false, f, (at_line pre (t :: ts) junk). split; [reflexivity|]. split; [exact HW|]. split; [reflexivity|]. split; [discriminate|]. auto.
  - rewrite shift_at. cbn [bind]. rewrite last_cons in HS. rewrite HS. unfold at_line at 1. cbn [fst].
    destruct (Z.ltb_spec (zlen pre + zlen ts - zlen pre) (zlen (f_args f))) as [Hlt|Hge].
    + exists false, f, (at_line pre ts (Some s :: junk)). split; [reflexivity|]. split; [exact HW|]. split; [reflexivity|]. split; [discriminate|]. intros _. right. unfold zlen in *. lia.
    + assert (Hn : (length (f_args f) <= length ts)%nat) by (unfold zlen in *; lia).
      set (n := length (f_args f)) in *.
      assert (Hsplit : ts = firstn n ts ++ skipn n ts) by (symmetry; apply firstn_skipn).
      assert (Hlen : length (firstn n ts) = length (f_args f)) by (rewrite firstn_length; unfold n in *; lia).
      destruct (items_at (f_args f) (firstn n ts) pre (skipn n ts) junk s (HW Ef) Hlen) as [j Hj].
      { rewrite <- Hsplit. destruct ts as [|y l]; [reflexivity|]. rewrite (last_d _ _ s t). exact HS. }
      rewrite <- Hsplit in Hj. rewrite Hj. cbn [bind].
      eexists true, _, _. split; [reflexivity|]. split.
      { intros H. discriminate H. }
      split; [reflexivity|]. split; [|discriminate]. intros _. split; [reflexivity|]. exists (firstn n ts), (skipn n ts), j. auto.
Qed.

Lemma flag_stale f pre junk : flag_wf f ->
  exists l', flag_parse f (at_line pre [] junk) (zlen pre) = Ok (false, f, l').
Proof.
  intros HW. unfold flag_parse. destruct (f_parsed f); [eauto|].
  rewrite shift_none. cbn [bind fst].
  destruct (Z.ltb_spec (zlen pre - 1 - zlen pre) (zlen (f_args f))); [eauto|]. pose proof (zlen_nonneg (f_args f)). lia.
Qed.

(** The pass when no word remains and [s] was the last. *)
Lemma flags_stale : forall fs pre s junk, flags_wf fs ->
  if names fs s then exists b fs' l', flags_parse fs (at_line pre [] (Some s :: junk)) (zlen pre) = Ok (false, b, fs', l') /\ flags_wf fs' /\ map f_name fs' = map f_name fs
  else flags_parse fs (at_line pre [] (Some s :: junk)) (zlen pre) = Ok (true, false, fs, at_line pre [] (Some s :: junk)).
Proof.
  induction fs as [|f fs IH]; intros pre s junk HW; [reflexivity|].
  inversion HW as [|? ? Hf HW']; subst. cbn [names existsb flags_parse]. rewrite word_stale. cbn [bind].
  destruct (String.eqb (f_name f) s) eqn:E; cbn [orb].
  - destruct (flag_stale f pre (Some s :: junk) Hf) as [l' Hl]. rewrite Hl. cbn [bind]. eexists _, _, _. split; [reflexivity|]. split; [exact HW|reflexivity].
  - specialize (IH pre s junk HW'). fold (names fs s). destruct (names fs s).
    + destruct IH as (b & fs' & l' & H & H1 & H2). rewrite H. cbn [bind]. eexists _, _, _. split; [reflexivity|]. split; [constructor; assumption|]. cbn [map]. congruence.
    + rewrite IH. reflexivity.
Qed.

Lemma unique_flag : forall before before0 (f f0 : flag) after after0, before ++ f :: after = before0 ++ f0 :: after0 -> f_name f0 = f_name f ->
  NoDup (map f_name (before ++ f :: after)) -> before0 = before /\ f0 = f /\ after0 = after.
Proof.
  induction before as [|b before IH]; intros before0 f f0 after after0 H Hn HD.
  - destruct before0 as [|b0 before0]; cbn in H; injection H as H1 H2; subst; [auto|].
    exfalso. cbn in HD. inversion HD as [|? ? Hni _]; subst. apply Hni. rewrite map_app. cbn. rewrite Hn. apply in_elt.
  - destruct before0 as [|b0 before0]; cbn in H; injection H as H1 H2; subst.
    + exfalso. cbn in HD. inversion HD as [|? ? Hni _]; subst. apply Hni. rewrite map_app. cbn. rewrite Hn. apply in_elt.
    + cbn in HD. inversion HD; subst. destruct (IH before0 f f0 after after0 H2 Hn) as (-> & -> & ->); auto.
Qed.

Lemma reads_flag_inv c t ts c' left : reads c (t :: ts) c' left false -> forall before f after, c_flags c = before ++ f :: after -> f_name f = t -> NoDup (map f_name (c_flags c)) ->
  f_parsed f = false /\ exists vals rest, ts = vals ++ rest /\ length vals = length (f_args f) /\
    reads (mk_cmd (c_args c) (before ++ given f vals :: after) (c_nargs c) (c_help c)) rest c' left false /\ (rest = [] -> names after (last vals t) = false).
Proof.
  intros H before f after HF HN HD.
  assert (Hin : In f (c_flags c)) by (rewrite HF; apply in_elt).
  remember (t :: ts) as w eqn:Hw. remember false as z eqn:Hz in H.
  destruct H as [c | c before0 f0 after0 vals rest c' left clash HF0 Hp0 Hl0 R0 | c rest c' left clash Hno R0 | c before0 a after0 w0 rest c' left clash Hno Hnh Ha Hb R0 | c w0 rest c' left clash Hno Hnh Hb R0].
  - discriminate.
  - injection Hw as Hw1 Hw2. rewrite HF in HF0, HD. destruct (unique_flag _ _ _ _ _ _ HF0 ltac:(congruence) HD) as (-> & -> & ->).
    split; [assumption|]. exists vals, rest. split; [congruence|]. split; [assumption|].
    destruct rest as [|y rest].
    + split; [|intros _; congruence]. inversion R0; subst. constructor.
    + split; [|discriminate]. subst clash. exact R0.
  - injection Hw as Hw1 Hw2. exfalso. apply (Hno f Hin). congruence.
  - injection Hw as Hw1 Hw2. exfalso. apply (Hno f Hin). congruence.
  - injection Hw as Hw1 Hw2. exfalso. apply (Hno f Hin). congruence.
Qed.

Definition with_flags (c : cmd) fs := mk_cmd (c_args c) fs (c_nargs c) (c_help c).

(** The pass when there are words. *)
Lemma flags_at : forall fs pre t ts junk s, flags_wf fs -> last (t :: ts) s = s ->
  exists ok b fs' l', flags_parse fs (at_line pre (t :: ts) junk) (zlen pre) = Ok (ok, b, fs', l') /\ flags_wf fs' /\ map f_name fs' = map f_name fs /\
  (ok = true -> exists ts' junk', l' = at_line pre ts' junk' /\ (if b then (length ts' <= length ts)%nat else ts' = t :: ts /\ fs' = fs /\ l' = at_line pre (t :: ts) junk /\ forall f, In f fs -> f_name f <> t) /\
     forall c done c' left, NoDup (map f_name (done ++ fs)) -> (reads (with_flags c (done ++ fs)) (t :: ts) c' left false <-> reads (with_flags c (done ++ fs')) ts' c' left false)) /\
  (ok = false -> forall c done c' left, NoDup (map f_name (done ++ fs)) -> ~ reads (with_flags c (done ++ fs)) (t :: ts) c' left false).
Proof.
  induction fs as [|f fs IH]; intros pre t ts junk s HW HS.
  - eexists true, false, [], _. split; [reflexivity|]. split; [constructor|]. split; [reflexivity|]. split; [|discriminate].
    intros _. exists (t :: ts), junk. split; [reflexivity|]. split.
    { split; [reflexivity|]. split; [reflexivity|]. split; [reflexivity|]. intros f []. }
    intros; reflexivity.
  - inversion HW as [|? ? Hf HW']; subst. cbn [flags_parse]. rewrite word_at. cbn [bind].
    destruct (String.eqb_spec (f_name f) t) as [E|E].
    + destruct (flag_at f pre t ts junk s Hf HS) as (ok & f' & l' & H1 & H2 & H3 & H4 & H5). rewrite H1. cbn [bind].
      destruct ok.
      * destruct (H4 eq_refl) as (Hp & vals & rest & junk' & Hts & Hlen & Hf' & Hl). subst l' f'.
        assert (HNone : forall c done, NoDup (map f_name (done ++ f :: fs)) -> forall c' left, reads (with_flags c (done ++ f :: fs)) (t :: ts) c' left false <-> (reads (with_flags c (done ++ given f vals :: fs)) rest c' left false /\ (rest = [] -> names fs (last vals t) = false))).
        { intros c done HD c' left. split.
          - intros R. destruct (reads_flag_inv _ _ _ _ _ R done f fs eq_refl E HD) as (_ & vals' & rest' & Hts' & Hlen' & R' & Hn).
            assert (vals' = vals /\ rest' = rest) as [-> ->].
            { rewrite Hts in Hts'. assert (length vals = length vals') by congruence. clear - Hts' H.
              revert vals' H Hts'. induction vals as [|v vals IH]; intros [|v' vals'] H Hts'; try discriminate; [auto|].
              cbn in Hts'. inversion Hts'; subst. destruct (IH vals') as [-> ->]; auto. }
            auto.
          - intros [R Hn]. rewrite <- E, Hts.
            pose proof (reads_flag (with_flags c (done ++ f :: fs)) done f fs vals rest c' left false eq_refl Hp Hlen R) as Q.
            destruct rest as [|y rest]; [|exact Q]. rewrite <- E in Hn. rewrite (Hn eq_refl) in Q. exact Q. }
        assert (HD' : forall done : list flag, NoDup (map f_name (done ++ f :: fs)) -> NoDup (map f_name ((done ++ [given f vals]) ++ fs))).
        { intros done HD. rewrite <- app_assoc. rewrite map_app in *. exact HD. }
        assert (Happ : forall (done l : list flag), done ++ given f vals :: l = (done ++ [given f vals]) ++ l) by (intros; rewrite <- app_assoc; reflexivity).
        destruct rest as [|y rest].
        -- pose proof (flags_stale fs pre s junk' HW') as Q.
           assert (Hs : last vals t = s).
           { rewrite Hts, app_nil_r, last_cons in HS. exact HS. }
           destruct (names fs s) eqn:En.
           ++ destruct Q as (b & fs' & l' & Q & Q1 & Q2). rewrite Q. cbn [bind].
              eexists false, true, _, _. split; [reflexivity|]. split; [constructor; assumption|]. split; [cbn [map]; congruence|]. split; [discriminate|].
              intros _ c done c' left HD R. apply (HNone c done HD) in R. destruct R as [_ R]. specialize (R eq_refl). rewrite Hs in R. congruence.
           ++ rewrite Q. cbn [bind].
              eexists true, true, _, _. split; [reflexivity|]. split; [constructor; assumption|]. split; [reflexivity|]. split; [|discriminate].
              intros _. exists [], (Some s :: junk'). split; [reflexivity|]. split; [cbn; lia|].
              intros c done c' left HD. rewrite (HNone c done HD c' left). rewrite Hs. intuition.
        -- assert (HSr : last (y :: rest) s = s).
           { rewrite Hts in HS. rewrite last_cons, last_app2 in HS. rewrite (last_d _ _ s (last vals t)). exact HS. }
           destruct (IH pre y rest (Some s :: junk') s HW' HSr) as (ok & b & fs' & l' & Q & Q1 & Q2 & Q3 & Q4). rewrite Q. cbn [bind].
           exists ok, true, (given f vals :: fs'), l'. split; [reflexivity|]. split; [constructor; assumption|]. split; [cbn [map]; congruence|]. split.
           ++ intros Hok. destruct (Q3 Hok) as (ts' & junk2 & Hl' & Hb & Hiff). exists ts', junk2. split; [exact Hl'|]. split.
              { rewrite Hts, app_length. cbn [length]. destruct b; [lia|]. destruct Hb as [-> _]. cbn [length]. lia. }
              intros c done c' left HD. rewrite (HNone c done HD c' left).
              rewrite (Happ done fs), (Happ done fs'). rewrite (Hiff c (done ++ [given f vals]) c' left (HD' done HD)).
              split; [intros [? ?]; assumption|intros; split; [assumption|discriminate]].
           ++ intros Hok c done c' left HD R. apply (HNone c done HD) in R. destruct R as [R _]. rewrite (Happ done fs) in R.
              exact (Q4 Hok c (done ++ [given f vals]) c' left (HD' done HD) R).
      * exists false, true, (f' :: fs), l'. split; [reflexivity|]. split; [constructor; assumption|]. split; [cbn [map]; congruence|]. split; [discriminate|].
        intros _ c done c' left HD R. destruct (reads_flag_inv _ _ _ _ _ R done f fs eq_refl E HD) as (Hp & vals & rest & Hts & Hlen & _).
        destruct (H5 eq_refl) as [Hc|Hc]; [congruence|]. rewrite Hts, app_length in Hc. lia.
    + destruct (IH pre t ts junk s HW' HS) as (ok & b & fs' & l' & Q & Q1 & Q2 & Q3 & Q4). rewrite Q. cbn [bind].
      assert (Happ : forall (done l : list flag), done ++ f :: l = (done ++ [f]) ++ l) by (intros; rewrite <- app_assoc; reflexivity).
      exists ok, b, (f :: fs'), l'. split; [reflexivity|]. split; [constructor; assumption|]. split; [cbn [map]; congruence|]. split.
      * intros Hok. destruct (Q3 Hok) as (ts' & junk2 & Hl' & Hb & Hiff). exists ts', junk2. split; [exact Hl'|]. split.
        { destruct b; [exact Hb|]. destruct Hb as (-> & -> & Hl2 & Hn). split; [reflexivity|]. split; [reflexivity|]. split; [exact Hl2|]. intros g [<-|Hg]; [exact E|apply Hn; exact Hg]. }
        intros c done c' left HD. rewrite (Happ done fs), (Happ done fs'). apply Hiff. rewrite <- Happ. exact HD.
      * intros Hok c done c' left HD R. rewrite (Happ done fs) in R, HD. exact (Q4 Hok c _ c' left HD R).
Qed.
