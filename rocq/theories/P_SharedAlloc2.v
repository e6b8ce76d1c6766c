(** Tracking of histories that keep at most two storages, newest dropped first. *)
From Verif Require Import Prelude M_SharedAlloc S_SharedAlloc P_SharedAlloc.
Local Open Scope Z_scope.

Definition links (s : mstate) (k : nat) : option (option aptr * option aptr) :=
  match nth_error (heap s) k with Some (Some r) => Some (a_prev r, a_next r) | _ => None end.

Definition TI (s : mstate) (L : list nat) : Prop := exists g, ga s = Some g /\
  match L with
  | [] => g_first g = None /\ g_last g = None
  | [a] => g_first g = Some a /\ g_last g = Some a /\ links s a = Some (Some None, Some None)
  | [a; b] => a <> b /\ g_first g = Some a /\ g_last g = Some a /\ links s a = Some (Some None, Some (Some b)) /\ links s b = Some (Some (Some a), Some None)
  | _ => False
  end.

Lemma TI_ext s s' L : TI s L -> ga s' = ga s -> (forall k, In k L -> links s' k = links s k) -> TI s' L.
Proof.
  intros (g & Hg & H) G Lk. exists g. split; [congruence|]. destruct L as [|a [|b [|c L]]]; [exact H| | |exact H]; rewrite !Lk by (cbn; auto); exact H.
Qed.

Lemma links_deref s k x : links s k = Some x -> exists r, deref s k = Ok r /\ a_prev r = fst x /\ a_next r = snd x /\ (k < length (heap s))%nat.
Proof.
  unfold links, deref. intros H. destruct (nth_error (heap s) k) as [[r|]|] eqn:E; try discriminate. injection H as <-. exists r. split; [reflexivity|]. split; [reflexivity|]. split; [reflexivity|].
  apply nth_error_Some. congruence.
Qed.
Lemma deref_links s k r : deref s k = Ok r -> links s k = Some (a_prev r, a_next r).
Proof. unfold links, deref. destruct (nth_error (heap s) k) as [[r'|]|]; intros E; try discriminate. injection E as <-. reflexivity. Qed.

Lemma links_set s k r j : (k < length (heap s))%nat -> links (set_heap s (list_set (heap s) k (Some r))) j =
  if (j =? k)%nat then Some (a_prev r, a_next r) else links s j.
Proof.
  intros H. unfold links. cbn [heap set_heap]. destruct (Nat.eqb_spec j k) as [->|Hne].
  - rewrite list_set_nth_eq by exact H. reflexivity.
  - rewrite list_set_nth_ne by lia. reflexivity.
Qed.

Lemma store_count_TI s a r c s' L : deref s a = Ok r -> store s a (with_count r c) = Ok s' -> TI s L -> TI s' L.
Proof.
  intros Hd E T. unfold store in E. rewrite Hd in E. cbn in E. injection E as <-. destruct (links_deref s a _ (deref_links _ _ _ Hd)) as (_ & _ & _ & _ & Ha).
  eapply TI_ext; [exact T|reflexivity|]. intros k _. rewrite links_set by exact Ha. destruct (Nat.eqb_spec k a) as [->|]; [|reflexivity].
  rewrite (deref_links _ _ _ Hd). reflexivity.
Qed.

Lemma TI_handles s L hs : TI s L -> TI (set_handles s hs) L.
Proof. intros T. eapply TI_ext; [exact T|reflexivity|reflexivity]. Qed.

Lemma delete_TI s L a : TI s (L ++ [a]) -> exists s', delete_alloc s a = Ok s' /\ TI s' L.
Proof.
  intros (g & Hg & T). destruct L as [|x [|y [|z L]]]; cbn [app] in T; try contradiction.
  - destruct T as (F & La & Lk). destruct (links_deref _ _ _ Lk) as (r & Hd & Hp & Hn & Ha). cbn [fst snd] in Hp, Hn.
    unfold delete_alloc. rewrite Hd. cbn [bind]. rewrite Hg, Hn, Hp. cbn [bind ga set_ga]. eexists. split; [reflexivity|].
    eexists. split; [reflexivity|]. cbn. auto.
  - destruct T as (Hne & F & La & Lx & Lk). destruct (links_deref _ _ _ Lk) as (r & Hd & Hp & Hn & Ha). destruct (links_deref _ _ _ Lx) as (rx & Hdx & Hpx & Hnx & Hx).
    cbn [fst snd] in *. unfold delete_alloc. rewrite Hd. cbn [bind]. rewrite Hg, Hn, Hp. cbn [bind].
    assert (deref (set_ga s (with_last g (Some x))) x = Ok rx) as Hd1 by exact Hdx. rewrite Hd1. cbn [bind]. unfold store. rewrite Hd1. cbn [bind ga set_heap set_ga heap entering_parallel handles freed].
    eexists. split; [reflexivity|]. eexists. split; [reflexivity|]. cbn [g_first g_last with_total with_last]. split; [exact F|]. split; [reflexivity|].
    unfold links. cbn [heap]. rewrite list_set_nth_ne by lia. rewrite list_set_nth_eq by exact Hx. cbn. rewrite Hpx. reflexivity.
Qed.

Lemma walk_TI s L : TI s L -> tracked s = Ok L.
Proof.
  intros (g & Hg & T). unfold tracked. rewrite Hg. destruct L as [|a [|b [|c L]]]; try contradiction.
  - destruct T as (-> & _). reflexivity.
  - destruct T as (-> & _ & Lk). destruct (links_deref _ _ _ Lk) as (r & Hd & Hp & Hn & Ha). cbn [fst snd] in *.
    destruct (length (heap s)); [lia|]. cbn [walk]. rewrite Hd. cbn [bind]. rewrite Hn. reflexivity.
  - destruct T as (Hne & -> & _ & La & Lb). destruct (links_deref _ _ _ La) as (ra & Hda & Hpa & Hna & Ha). destruct (links_deref _ _ _ Lb) as (rb & Hdb & Hpb & Hnb & Hb). cbn [fst snd] in *.
    destruct (length (heap s)) as [|[|n]]; [lia|lia|]. cbn [walk]. rewrite Hda. cbn [bind]. rewrite Hna, Hdb. cbn [bind]. rewrite Hnb. reflexivity.
Qed.

Lemma new_TI s L size : TI s L -> (length L <= 1)%nat -> exists s', new_alloc s size = Ok (s', length (heap s)) /\ TI s' (L ++ [length (heap s)]).
Proof.
  intros (g & Hg & T) HL. unfold new_alloc. set (s0 := set_heap s _). cbn [ga set_heap s0]. rewrite Hg.
  set (n := length (heap s)) in *. set (r0 := {| a_size := size; a_use_count := 1; a_prev := Some (g_last g); a_next := Some None |}).
  assert (store s0 n r0 = Ok (set_heap s (heap s ++ [Some r0]))) as E1.
  { unfold store, deref, s0, n. cbn [heap set_heap]. rewrite nth_error_app2, Nat.sub_diag by lia. cbn. unfold set_heap. cbn. f_equal. f_equal.
    clear. induction (heap s) as [|x l IH]; cbn; [reflexivity|]. f_equal. exact IH. }
  rewrite E1. cbn [bind]. set (s1 := set_heap s _).
  assert (links s1 n = Some (Some (g_last g), Some None)) as Ln.
  { unfold links, s1, n. cbn [heap set_heap]. rewrite nth_error_app2, Nat.sub_diag by lia. reflexivity. }
  assert (exists s2, match g_last g with Some l => r <- deref s1 l ;; store s1 l (with_next r (Some n)) | None => Ok (set_ga s1 (with_last (with_first g (Some n)) (Some n))) end = Ok s2
    /\ TI s2 (L ++ [n])) as (s2 & E2 & T2).
  { destruct L as [|a [|b L]]; cbn in HL; try lia.
    - destruct T as (F & La). rewrite La in *. eexists. split; [reflexivity|]. eexists. split; [reflexivity|]. cbn. auto.
    - destruct T as (F & La & Lk). destruct (links_deref _ _ _ Lk) as (r & Hd & Hp & Hn & Ha). cbn [fst snd] in *. rewrite La in *.
      assert (deref s1 a = Ok r) as Hd1. { unfold deref, s1 in *. cbn [heap set_heap]. rewrite nth_error_app1 by exact Ha. exact Hd. }
      unfold store. rewrite Hd1. cbn [bind]. eexists. split; [reflexivity|]. exists g. split; [exact Hg|].
      assert (a < length (heap s1))%nat as Ha1. { unfold s1. cbn [heap set_heap]. rewrite app_length. lia. }
      cbn [app]. split; [fold n in Ha; lia|]. split; [exact F|]. split; [exact La|]. rewrite !links_set by exact Ha1. rewrite Nat.eqb_refl. fold n in Ha.
      replace (n =? a)%nat with false by (symmetry; apply Nat.eqb_neq; lia). split; [cbn; rewrite Hp; reflexivity|exact Ln]. }
  rewrite E2. cbn [bind]. pose proof T2 as (g2 & Hg2 & T2'). rewrite Hg2.
  assert (forall s' g', heap s' = heap s2 -> ga s' = Some g' -> g_first g' = g_first g2 -> g_last g' = g_last g2 -> TI s' (L ++ [n])) as K.
  { intros s' g' Hh Hga Hf Hl. exists g'. split; [exact Hga|]. rewrite Hf, Hl. unfold links in *. rewrite Hh. exact T2'. }
  destruct (_ <? _).
  - rewrite (walk_TI _ (L ++ [n])); [|eapply K; reflexivity]. cbn [bind]. eexists. split; [reflexivity|]. eapply K; reflexivity.
  - eexists. split; [reflexivity|]. eapply K; reflexivity.
Qed.

Lemma in_live i k : (forall j, In (Refers j) (vars i) -> (j < length (made i))%nat) -> In k (live i) <-> In (Refers k) (vars i).
Proof.
  intros Hr. unfold live. rewrite filter_In, in_seq, existsb_exists. split.
  - intros (_ & t & Ht & E). destruct t as [j| |]; cbn in E; try discriminate. apply Nat.eqb_eq in E. subst j. exact Ht.
  - intros H. split; [specialize (Hr _ H); lia|]. exists (Refers k). split; [exact H|apply Nat.eqb_refl].
Qed.

Lemma clear_TI s i h v i' : R s i -> TI s (live i) -> value i h <> Gone -> var s h = Ok v ->
  (live i' = live i \/ exists k, live i = live i' ++ [k]) ->
  (forall k, In (Refers k) (vars i') <-> 1 <= users_without i h k) -> (forall j, In (Refers j) (vars i') -> (j < length (made i'))%nat) ->
  exists s', clear s v = Ok s' /\ TI s' (live i').
Proof.
  intros HR T Hv Ev Hl Hu' Hr'. destruct (R_var s i h HR Hv) as (v' & Ev' & Hrel). rewrite Ev in Ev'. injection Ev' as <-.
  pose proof (in_live i) as Li. pose proof (r_range _ _ HR) as Hr. specialize (fun k => Li k Hr). pose proof (in_live i') as Li'. specialize (fun k => Li' k Hr').
  assert (forall k, In (Refers k) (vars i) <-> 1 <= users i k) as Hu.
  { intros k. split; [intros H; apply In_nth_error in H as (j & H); exact (cnt_pos (refers_to k) (vars i) j _ H (Nat.eqb_refl k))|].
    intros H. destruct (users_in s i k HR ltac:(lia)) as (j & Hj). eapply nth_error_In; exact Hj. }
  assert (NoDup (live i)) as ND by (apply NoDup_filter, seq_NoDup).
  destruct (value i h) as [k| |] eqn:Eh; cbn in Hrel; [| |discriminate].
  - injection Hrel as ->. pose proof (Hr k (value_in i h k Eh)) as Hk. destruct (made_get i k Hk) as (sz & Hsz).
    pose proof (users_pos i h k Eh) as Hp. destruct (deref_view s (made i) (users i) k sz (r_heap _ _ HR) Hsz ltac:(lia)) as (r & Hd & _ & Hc).
    cbn [clear]. rewrite Hd. cbn [bind]. destruct (store s k (with_count r (a_use_count r - 1))) as [s1| |] eqn:E1; [|unfold store in E1; rewrite Hd in E1; discriminate..].
    cbn [bind]. pose proof (store_count_TI s k r _ s1 (live i) Hd E1 T) as T1. rewrite Hc.
    assert (forall j, users_without i h j = users i j - if (k =? j)%nat then 1 else 0) as Hw.
    { intros j. unfold users_without. rewrite Eh. cbn. destruct (k =? j)%nat; reflexivity. }
    destruct (Z.eqb_spec (users i k - 1) 0) as [Hz|Hz].
    + assert (~ In k (live i')) as Hn. { rewrite Li', Hu', Hw, Nat.eqb_refl. lia. }
      assert (In k (live i)) as Hin. { rewrite Li, Hu. lia. }
      destruct Hl as [Hl|(k' & Hl)]; [rewrite Hl in Hn; contradiction|]. assert (k' = k) as ->. { rewrite Hl in Hin. apply in_app_or in Hin as [Hin|[Hin|[]]]; [contradiction|exact Hin]. }
      rewrite Hl in T1. exact (delete_TI s1 _ k T1).
    + exists s1. split; [reflexivity|]. destruct Hl as [->|(k' & Hl)]; [exact T1|]. exfalso.
      assert (In k' (live i')) as Hin. { rewrite Li', Hu', Hw. assert (In k' (live i)) as A by (rewrite Hl; apply in_app_iff; cbn; auto). rewrite Li, Hu in A. destruct (Nat.eqb_spec k k') as [<-|]; lia. }
      rewrite Hl in ND. apply NoDup_remove_2 in ND. rewrite app_nil_r in ND. contradiction.
  - destruct Hrel as (v' & E1 & Hn). injection E1 as <-. rewrite clear_null by exact Hn. exists s. split; [reflexivity|].
    destruct Hl as [->|(k' & Hl)]; [exact T|]. exfalso.
    assert (In k' (live i')) as Hin. { rewrite Li', Hu'. unfold users_without. rewrite Eh. cbn. assert (In k' (live i)) as A by (rewrite Hl; apply in_app_iff; cbn; auto). rewrite Li, Hu in A. lia. }
    rewrite Hl in ND. apply NoDup_remove_2 in ND. rewrite app_nil_r in ND. contradiction.
Qed.

Lemma cnt_In k l : In (Refers k) l <-> 1 <= zlen (filter (refers_to k) l).
Proof.
  split.
  - intros H. apply In_nth_error in H as (j & H). exact (cnt_pos (refers_to k) l j _ H (Nat.eqb_refl k)).
  - intros H. destruct (filter (refers_to k) l) as [|t m] eqn:E; [cbn in H; lia|].
    assert (In t (filter (refers_to k) l)) as Ht by (rewrite E; left; reflexivity). apply filter_In in Ht as [Ht Hr].
    destruct t as [j| |]; cbn in Hr; try discriminate. apply Nat.eqb_eq in Hr. subst j. exact Ht.
Qed.

Lemma live_ext i i' : made i' = made i -> (forall k, In (Refers k) (vars i') <-> In (Refers k) (vars i)) -> live i' = live i.
Proof.
  intros Hm H. unfold live. rewrite Hm. apply filter_ext. intros k. apply Bool.eq_iff_eq_true. rewrite !existsb_exists.
  split; intros (t & Ht & E); destruct t as [j| |]; cbn in E; try discriminate; apply Nat.eqb_eq in E; subst j; exists (Refers k); (split; [apply H; exact Ht|apply Nat.eqb_refl]).
Qed.
Lemma live_no_longer i c : made (ideal_exec i c) = made i -> 
  (live (ideal_exec i c) = live i \/ (live (ideal_exec i c) = live i ++ [length (made i)] /\ (length (live (ideal_exec i c)) <= 2)%nat) \/ (exists k, live i = live (ideal_exec i c) ++ [k])) ->
  live (ideal_exec i c) = live i \/ exists k, live i = live (ideal_exec i c) ++ [k].
Proof.
  intros Hm [H|[[H _]|H]]; auto. exfalso. assert (In (length (made i)) (live (ideal_exec i c))) as A by (rewrite H; apply in_app_iff; cbn; auto).
  unfold live in A. apply filter_In in A as [A _]. rewrite Hm in A. apply in_seq in A. lia.
Qed.

Lemma exec_TI s i c : R s i -> TI s (live i) -> sensible i c ->
  (let i' := ideal_exec i c in live i' = live i \/ (live i' = live i ++ [length (made i)] /\ (length (live i') <= 2)%nat) \/ (exists k, live i = live i' ++ [k])) ->
  exists s', exec s c = Ok s' /\ TI s' (live (ideal_exec i c)).
Proof.
  intros HR T Hs Hl. cbv zeta in Hl. pose proof (r_range _ _ HR) as Hr.
  destruct c as [size|g|g|h g|h g|h|b]; cbn [exec]; cbn [sensible] in Hs.
  - (* New *)
    assert (length (heap s) = length (made i)) as Hh by apply (rh_len _ _ _ (r_heap _ _ HR)).
    assert (live (ideal_exec i (New size)) = live i ++ [length (made i)]) as Hlive.
    { unfold live. cbn [ideal_exec made vars]. rewrite app_length. cbn [length]. rewrite Nat.add_1_r, seq_S, filter_app. cbn [filter Nat.add].
      rewrite existsb_app. cbn [existsb refers_to]. rewrite Nat.eqb_refl, Bool.orb_true_r. f_equal. apply filter_ext_in. intros k Hk. apply in_seq in Hk.
      rewrite existsb_app. cbn [existsb refers_to]. replace (length (made i) =? k)%nat with false by (symmetry; apply Nat.eqb_neq; lia). rewrite !Bool.orb_false_r. reflexivity. }
    assert (length (live i) <= 1)%nat as HL.
    { destruct Hl as [Hl|[[_ Hl]|(k & Hl)]].
      - exfalso. rewrite Hlive in Hl. apply (f_equal (@length nat)) in Hl. rewrite app_length in Hl. cbn in Hl. lia.
      - rewrite Hlive, app_length in Hl. cbn in Hl. lia.
      - exfalso. rewrite Hlive in Hl. apply (f_equal (@length nat)) in Hl. rewrite !app_length in Hl. cbn in Hl. lia. }
    destruct (new_TI s (live i) size T HL) as (s' & E & T'). rewrite E. cbn [bind]. eexists. split; [reflexivity|]. apply TI_handles. rewrite Hlive, <- Hh. exact T'.
  - (* CopyC *)
    assert (live (ideal_exec i (CopyC g)) = live i) as ->.
    { apply live_ext; [reflexivity|]. intros k. cbn [ideal_exec vars]. rewrite in_app_iff. cbn [In]. split; [|auto]. intros [H|[H|[]]]; [exact H|].
      destruct (par i); [discriminate|]. eapply value_in; exact H. }
    destruct (R_var s i g HR Hs) as (v & Ev & Hrel). rewrite Ev. cbn [bind].
    destruct (value i g) as [k| |] eqn:Eg; [| |contradiction]; cbn [hrel] in Hrel.
    + injection Hrel as ->. pose proof (Hr k (value_in i g k Eg)) as Hk. destruct (made_get i k Hk) as (sz & Hsz).
      destruct (deref_view s (made i) (users i) k sz (r_heap _ _ HR) Hsz ltac:(pose proof (users_pos i g k Eg); lia)) as (r & Hd & _).
      cbn [copy]. rewrite Hd. cbn [bind]. destruct (entering_parallel s); [cbn [bind]; eexists; split; [reflexivity|]; apply TI_handles, T|].
      destruct (store s k (with_count r (a_use_count r + 1))) as [s1| |] eqn:E1; [|unfold store in E1; rewrite Hd in E1; discriminate..]. cbn [bind].
      eexists; split; [reflexivity|]. apply TI_handles. eapply store_count_TI; eassumption.
    + destruct Hrel as (v' & E0 & Hn). injection E0 as <-. destruct v; [|exfalso; eapply Hn; reflexivity|]; cbn [copy bind]; (eexists; split; [reflexivity|]; apply TI_handles, T).
  - (* MoveC *)
    destruct Hs as [Hs Hp].
    assert (live (ideal_exec i (MoveC g)) = live i) as ->.
    { apply live_ext; [reflexivity|]. intros k. cbn [ideal_exec vars]. rewrite !cnt_In. fold (cnt (refers_to k) (list_set (vars i) g Nothing ++ [value i g])). rewrite cnt_app, cnt_cons.
      rewrite (cnt_set _ _ _ _ _ (value_nth i g Hs)). unfold cnt. cbn. lia. }
    destruct (R_var s i g HR Hs) as (v & Ev & Hrel). rewrite Ev. cbn [bind].
    assert (move s v = Ok (s, v)) as E1'. { pose proof (r_par _ _ HR) as Hpar. destruct v; cbn; auto. rewrite Hpar, Hp. reflexivity. }
    rewrite E1'. cbn [bind]. eexists; split; [reflexivity|]. apply TI_handles, T.
  - (* CopyA *)
    destruct Hs as (Hh & Hgg & Hne & Hp). apply live_no_longer in Hl; [|reflexivity].
    destruct (R_var s i h HR Hh) as (vh & Evh & Hrelh). rewrite Evh. cbn [bind].
    assert (forall k, In (Refers k) (vars (ideal_exec i (CopyA h g))) <-> 1 <= users_without i h k) as Hw.
    { intros k. rewrite cnt_In. cbn [ideal_exec vars]. rewrite (users_set i h _ Hh k). destruct (value i g) as [j| |] eqn:Eg; cbn; try lia.
      destruct (Nat.eqb_spec j k) as [->|]; cbn; [|lia].
      assert (1 <= users_without i h k); [|lia]. unfold users_without. pose proof (cnt_set (refers_to k) (vars i) h _ Nothing (value_nth i h Hh)) as Q. cbn in Q.
      assert (1 <= cnt (refers_to k) (list_set (vars i) h Nothing)); [|unfold users, cnt in *; lia].
      apply (cnt_pos _ _ g (Refers k)); [|cbn; apply Nat.eqb_refl]. rewrite list_set_nth_ne by lia. rewrite <- Eg. apply value_nth. rewrite Eg. discriminate. }
    destruct (clear_TI s i h vh (ideal_exec i (CopyA h g)) HR T Hh Evh Hl Hw) as (s1 & E1 & T1).
    { cbn [ideal_exec vars made]. intros j Hj. apply In_list_set in Hj as [Hj|Hj]; [|auto]. apply Hr. symmetry in Hj. eapply value_in; exact Hj. }
    rewrite E1. cbn [bind]. destruct (clear_R s i h vh s1 HR Hh Evh E1) as (A1 & B1 & C1 & D1).
    destruct (R_var s i g HR Hgg) as (vg & Evg & Hrelg). assert (var s1 g = Ok vg) as Evg1 by (unfold var in *; rewrite B1; exact Evg). rewrite Evg1. cbn [bind].
    destruct (value i g) as [k| |] eqn:Eg; [| |contradiction]; cbn [hrel] in Hrelg.
    + injection Hrelg as ->. pose proof (Hr k (value_in i g k Eg)) as Hk. destruct (made_get i k Hk) as (sz & Hsz).
      assert (1 <= users_without i h k) as Hu.
      { apply Hw. cbn [ideal_exec vars]. rewrite Eg. eapply nth_error_In. apply list_set_nth_eq. apply nth_error_Some. rewrite (value_nth i h Hh). discriminate. }
      destruct (deref_view s1 (made i) (users_without i h) k sz A1 Hsz ltac:(lia)) as (r & Hd & _).
      cbn [copy]. rewrite Hd. cbn [bind]. destruct (entering_parallel s1); [cbn [bind]; eexists; split; [reflexivity|]; apply TI_handles, T1|].
      destruct (store s1 k (with_count r (a_use_count r + 1))) as [s2| |] eqn:E2; [|unfold store in E2; rewrite Hd in E2; discriminate..]. cbn [bind].
      eexists; split; [reflexivity|]. apply TI_handles. eapply store_count_TI; eassumption.
    + destruct Hrelg as (v' & E0 & Hn). injection E0 as <-. destruct vg; [|exfalso; eapply Hn; reflexivity|]; cbn [copy bind]; (eexists; split; [reflexivity|]; apply TI_handles, T1).
  - (* MoveA *)
    destruct Hs as (Hh & Hgg & Hne & Hp). apply live_no_longer in Hl; [|reflexivity].
    destruct (R_var s i h HR Hh) as (vh & Evh & Hrelh). rewrite Evh. cbn [bind].
    assert (forall k, In (Refers k) (vars (ideal_exec i (MoveA h g))) <-> 1 <= users_without i h k) as Hw.
    { intros k. rewrite cnt_In. cbn [ideal_exec vars]. 
      fold (cnt (refers_to k) (list_set (list_set (vars i) h (value i g)) g Nothing)).
      assert (nth_error (list_set (vars i) h (value i g)) g = Some (value i g)) as Q by (rewrite list_set_nth_ne by lia; apply value_nth; exact Hgg).
      rewrite (cnt_set _ _ _ _ _ Q), (cnt_set _ _ _ _ _ (value_nth i h Hh)). unfold users_without, users, cnt. cbn [b2z refers_to]. lia. }
    destruct (clear_TI s i h vh (ideal_exec i (MoveA h g)) HR T Hh Evh Hl Hw) as (s1 & E1 & T1).
    { cbn [ideal_exec vars made]. intros j Hj. apply In_list_set in Hj as [Hj|Hj]; [discriminate|]. apply In_list_set in Hj as [Hj|Hj]; [|auto]. apply Hr. symmetry in Hj. eapply value_in; exact Hj. }
    rewrite E1. cbn [bind]. destruct (clear_R s i h vh s1 HR Hh Evh E1) as (A1 & B1 & C1 & D1).
    destruct (R_var s i g HR Hgg) as (vg & Evg & Hrelg). assert (var s1 g = Ok vg) as Evg1 by (unfold var in *; rewrite B1; exact Evg). rewrite Evg1. cbn [bind].
    assert (move s1 vg = Ok (s1, vg)) as E2'. { pose proof (r_par _ _ HR) as Hpar. destruct vg; cbn; auto. rewrite C1, Hpar, Hp. reflexivity. }
    rewrite E2'. cbn [bind]. eexists; split; [reflexivity|]. apply TI_handles, T1.
  - (* Destroy *)
    apply live_no_longer in Hl; [|reflexivity].
    destruct (R_var s i h HR Hs) as (vh & Evh & Hrelh). rewrite Evh. cbn [bind].
    destruct (clear_TI s i h vh (ideal_exec i (Destroy h)) HR T Hs Evh Hl) as (s1 & E1 & T1).
    { intros k. rewrite cnt_In. cbn [ideal_exec vars]. rewrite (users_set i h _ Hs k). cbn. lia. }
    { cbn [ideal_exec vars made]. intros j Hj. apply In_list_set in Hj as [Hj|Hj]; [discriminate|auto]. }
    rewrite E1. cbn [bind]. eexists; split; [reflexivity|]. apply TI_handles, T1.
  - eexists. split; [reflexivity|]. eapply TI_ext; [exact T|reflexivity|reflexivity].
Qed.

Lemma exec_all_TI cs : forall s i, R s i -> TI s (live i) -> sensible_all i cs -> stack_of_two i cs ->
  exists s', exec_all s cs = Ok s' /\ TI s' (live (ideal_all i cs)).
Proof.
  induction cs as [|c cs IH]; intros s i HR T Hs Hk; [cbn; eauto|]. destruct Hs as [Hc Hs]. destruct Hk as [Hl Hk].
  destruct (exec_TI s i c HR T Hc Hl) as (s1 & E1 & T1). destruct (exec_R s i c s1 HR Hc E1) as (HR1 & _).
  destruct (IH s1 _ HR1 T1 Hs Hk) as (s' & E & T'). exists s'. split; [unfold exec_all in *; cbn [foldM]; rewrite E1; exact E|exact T'].
Qed.

Lemma tracked_stack cs : sensible_all ideal0 cs -> stack_of_two ideal0 cs ->
  exists s, (s0 <- start_tracking init_state ;; exec_all s0 cs) = Ok s /\ tracked s = Ok (live (ideal_all ideal0 cs)).
Proof.
  intros Hs Hk. destruct R_tracked as (s0 & E0 & HR0). assert (TI s0 (live ideal0)) as T0. { cbn in E0. injection E0 as <-. eexists. split; [reflexivity|]. cbn. auto. }
  destruct (exec_all_TI cs s0 ideal0 HR0 T0 Hs Hk) as (s & E & T). exists s. rewrite E0. split; [exact E|]. apply walk_TI, T.
Qed.
