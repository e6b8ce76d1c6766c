From Verif Require Import Prelude M_Profile S_Profile P_Profile P_Profile2.
Local Open Scope nat_scope.

Lemma grow_in : forall r q0 q, In q (grow q0 r) <-> exists a b, r = a ++ b /\ a <> [] /\ q = rev a ++ q0.
Proof.
  induction r as [|x r IH]; intros q0 q; cbn [grow].
  - split; [intros []|]. intros (a & b & E & Ha & _). destruct a; [congruence|discriminate].
  - cbn [In]. rewrite IH. split.
    + intros [<-|(a & b & -> & Ha & ->)].
      * exists [x], r. split; [reflexivity|]. split; [discriminate|reflexivity].
      * exists (x :: a), b. split; [reflexivity|]. split; [discriminate|]. cbn. rewrite <- app_assoc. reflexivity.
    + intros (a & b & E & Ha & ->). destruct a as [|y a]; [congruence|]. cbn [app] in E. injection E as <- ->.
      destruct a as [|z a]; [left; reflexivity|]. right. exists (z :: a), b. split; [reflexivity|]. split; [discriminate|].
      cbn [rev]. rewrite <- !app_assoc. reflexivity.
Qed.
Lemma grow_NoDup : forall r q0, NoDup (grow q0 r).
Proof.
  induction r as [|x r IH]; intros q0; cbn [grow]; constructor; [|apply IH]. intros H. apply grow_in in H as (a & b & _ & Ha & E).
  apply (f_equal (@length _)) in E. rewrite app_length, rev_length in E. cbn in E. destruct a; [congruence|cbn in E; lia].
Qed.
Lemma begins_spec q p : begins q p <-> beginsb q p = true.
Proof.
  unfold begins, beginsb. destruct (path_dec (firstn (length q) p) q) as [E|E]; split; try congruence.
  - intros _. exists (skipn (length q) p). rewrite <- E at 1. symmetry. apply firstn_skipn.
  - intros (r & ->). exfalso. apply E. rewrite firstn_app, Nat.sub_diag, firstn_all. cbn. apply app_nil_r.
Qed.
Lemma grow_count p q : q <> [] -> count_occ path_dec (grow [] p) (rev q) = if beginsb q p then 1 else 0.
Proof.
  intros Hq. assert (HI : In (rev q) (grow [] p) <-> beginsb q p = true).
  { rewrite grow_in, <- begins_spec. split.
    - intros (a & b & -> & Ha & E). rewrite app_nil_r in E. apply (f_equal (@rev _)) in E. rewrite !rev_involutive in E. subst. exists b. reflexivity.
    - intros (r & ->). exists q, r. rewrite app_nil_r. auto. }
  pose proof (proj1 (NoDup_count_occ path_dec _) (grow_NoDup p []) (rev q)) as H1.
  destruct (beginsb q p).
  - assert (H2 : count_occ path_dec (grow [] p) (rev q) > 0) by (apply count_occ_In, HI; reflexivity). lia.
  - apply count_occ_not_In. intros H. apply HI in H. discriminate.
Qed.

Lemma sub_any h : inv h -> forall k k' i, length (frames h) - i <= k -> length (frames h) - i <= k' -> i < length (frames h) -> sub h k i = sub h k' i.
Proof.
  intros I. induction k as [|k IH]; intros k' i H1 H2 Hi; [lia|]. destruct k' as [|k']; [lia|]. cbn [sub]. f_equal.
  assert (G : forall l, (forall c, In c l -> i < c < length (frames h)) -> flat_map (sub h k) l = flat_map (sub h k') l).
  { induction l as [|c l IHl]; intros H; [reflexivity|]. cbn [flat_map]. pose proof (H c (or_introl eq_refl)). f_equal; [apply IH; lia|].
    apply IHl. intros d Hd. apply H. right. exact Hd. }
  apply G. intros c Hc. exact (child_gt h I _ _ Hc).
Qed.

(** * Sums *)
Definition val {A} (v : A -> Z) (l : list A) (j : nat) : Z := match nth_error l j with Some x => v x | None => 0%Z end.
Lemma val_map {A} (v : A -> Z) (l : list A) : map (val v l) (seq 0 (length l)) = map v l.
Proof.
  induction l as [|x l IH]; [reflexivity|]. cbn [length seq map]. f_equal. rewrite <- seq_shift, map_map. exact IH.
Qed.
Lemma total_perm l m : Permutation l m -> total l = total m.
Proof. intros H. unfold total. induction H; cbn [fold_right]; lia. Qed.
Lemma sum_where_val test v l : sum_where test v l = total (map (fun j => val (fun x => if test (fst x) then v x else 0%Z) l j) (seq 0 (length l))).
Proof.
  rewrite val_map. unfold sum_where. induction l as [|x l IH]; [reflexivity|]. cbn [filter map total fold_right].
  destruct (test (fst x)); cbn [map total fold_right] in *; unfold total in *; lia.
Qed.
Lemma total_filter (t : nat -> bool) (v : nat -> Z) l : total (map v (filter t l)) = total (map (fun j => if t j then v j else 0%Z) l).
Proof. unfold total. induction l as [|x l IH]; [reflexivity|]. cbn [filter map fold_right]. destruct (t x); cbn [map fold_right]; lia. Qed.
Lemma fold_sub l : forall t, fold_left Z.sub l t = (t - total l)%Z.
Proof. unfold total. induction l as [|x l IH]; intros t; cbn [fold_left fold_right]; [lia|]. rewrite IH. lia. Qed.
Lemma total_ext (f g : nat -> Z) l : (forall j, In j l -> f j = g j) -> total (map f l) = total (map g l).
Proof. intros H. f_equal. apply map_ext_in, H. Qed.

Section Invert.
Variables (h : history) (ps : list path).
Hypothesis I : inv h.
Hypothesis HL : length ps = length (frames h).
Hypothesis HPs : forall i p, nth_error ps i = Some p -> frame_path h (Some i) p.
Let n := length (frames h).
Let pfs := combine ps (frames h).

Lemma pfs_nth i p f : nth_error ps i = Some p -> nth_error (frames h) i = Some f -> nth_error pfs i = Some (p, f).
Proof.
  unfold pfs. clear. revert i. generalize (frames h). induction ps as [|q l IH]; intros [|g fs] [|i]; cbn; try discriminate; try congruence. auto.
Qed.
Lemma pfs_len : length pfs = n.
Proof. unfold pfs. rewrite combine_length, HL. fold n. lia. Qed.
Lemma all_nth i : i < n -> exists p f, nth_error ps i = Some p /\ nth_error (frames h) i = Some f /\ nth_error pfs i = Some (p, f) /\ frame_path h (Some i) p.
Proof.
  intros Hi. destruct (nth_lt (frames h) i Hi) as (f & Ef). destruct (nth_lt ps i) as (p & Ep); [rewrite HL; exact Hi|].
  exists p, f. auto using pfs_nth.
Qed.
Lemma path_len_le i p : frame_path h (Some i) p -> length p <= S i.
Proof.
  revert p. induction i as [i IH] using lt_wf_ind. intros p H. inversion H as [|? f nm q Ef En Hq]; subst. cbn [length].
  destruct (parent f) as [k|] eqn:EP; [|inversion Hq; cbn; lia]. pose proof (i_par h I i f k Ef EP). specialize (IH k ltac:(lia) q Hq). lia.
Qed.

(* the self time of the code is that of the specification *)
Lemma self_spec i p f : nth_error ps i = Some p -> nth_error (frames h) i = Some f ->
  mapM (time h) (children (frames h) (Some i)) = Ok (map (val (fun x => total_runtime (snd x)) pfs) (children (frames h) (Some i))) /\
  Z.max (fold_left Z.sub (map (val (fun x => total_runtime (snd x)) pfs) (children (frames h) (Some i))) (total_runtime f)) 0 = self_value pfs (p, f).
Proof.
  intros Ep Ef. split.
  - apply mapM_ok.
    assert (G : forall l, (forall c, In c l -> c < n) -> Forall2 (fun c t => time h c = Ok t) l (map (val (fun x => total_runtime (snd x)) pfs) l)).
    { induction l as [|c l IH]; intros H; [constructor|]. cbn [map]. constructor; [|apply IH; intros d Hd; apply H; right; exact Hd].
      destruct (all_nth c (H c (or_introl eq_refl))) as (q & g & Eq & Eg & Epf & _). unfold time, vget, val. rewrite Eg, Epf. reflexivity. }
    apply G. intros c Hc. apply (child_gt h I i c Hc).
  - rewrite fold_sub. unfold self_value. cbn [fst snd]. f_equal. f_equal. rewrite sum_where_val, pfs_len. unfold children. fold n. rewrite total_filter.
    apply total_ext. intros j Hj. apply in_seq in Hj. destruct (all_nth j ltac:(lia)) as (q & g & Eq & Eg & Epf & HPj). unfold val. rewrite Epf. cbn [fst snd].
    assert (EB : is_child (frames h) (Some i) j = is_outer p q); [|rewrite EB; reflexivity].
    inversion HPj as [|? g' nm q' Eg' En Hq']; subst. rewrite Eg in Eg'. injection Eg' as <-. cbn [is_outer].
    unfold is_child. rewrite Eg. destruct (path_dec q' p) as [->|Hne].
    + apply opt_eqb_spec. eapply path_inj; [exact I|exact Hq'|apply HPs, Ep].
    + apply opt_eqb_ne. intros EP. apply Hne. rewrite EP in Hq'. eapply path_det; [exact Hq'|apply HPs, Ep].
Qed.

Definition pth (j : nat) : path := match nth_error ps j with Some p => p | None => [] end.
Definition tot_of (D : list nat) (q : path) : Z := total (map (fun j => val (self_value pfs) pfs j * Z.of_nat (count_occ path_dec (grow [] (pth j)) q))%Z D).
Definition cnt_of (D : list nat) (q : path) : nat := list_sum (map (fun j => match nth_error (frames h) j with Some f => number_of_calls f | None => 0 end * count_occ path_dec (grow [] (pth j)) q) D).

Lemma queue_spec : forall fuel q D g, Permutation (D ++ flat_map (sub h n) q) (seq 0 n) -> n - length D <= fuel ->
  holds g (tot_of D) (cnt_of D) (flat_map (fun j => grow [] (pth j)) D) ->
  exists D' g', invert_queue fuel h g q = Ok g' /\ Permutation D' (seq 0 n) /\ holds g' (tot_of D') (cnt_of D') (flat_map (fun j => grow [] (pth j)) D').
Proof.
  induction fuel as [|fuel IH]; intros q D g HP Hf HH.
  - assert (q = []) as ->.
    { destruct q as [|x q]; [reflexivity|]. pose proof (Permutation_length HP) as L. rewrite seq_length, app_length in L. cbn [flat_map] in L.
      rewrite app_length in L. assert (0 < length (sub h n x)) by (destruct n; cbn; lia). lia. }
    cbn [flat_map] in HP. rewrite app_nil_r in HP. exists D, g. auto.
  - destruct q as [|x q]; cbn [invert_queue].
    { cbn [flat_map] in HP. rewrite app_nil_r in HP. exists D, g. auto. }
    assert (Hx : x < n).
    { assert (In x (seq 0 n)); [|rewrite in_seq in *; lia]. apply (Permutation_in _ HP). apply in_or_app. right. cbn [flat_map]. apply in_or_app. left. destruct n; left; reflexivity. }
    destruct (all_nth x Hx) as (p & f & Ep & Ef & Epf & HPx). unfold time at 1, calls, vget. rewrite Ef. cbn [bind].
    rewrite (children_of_spec h (Some x) I Hx). cbn [bind]. destruct (self_spec x p f Ep Ef) as [-> Es]. cbn [bind]. rewrite Es.
    destruct (climb_inverts h (self_value pfs (p, f)) (number_of_calls f) (length (frames h)) (Some x) p HPx) with (g := g) (tot := tot_of D) (cnt := cnt_of D) (dom := flat_map (fun j => grow [] (pth j)) D) (p := @None nat) (q0 := @nil (list Z)) as (g' & -> & HH').
    { pose proof (path_len_le x p HPx). fold n. lia. }
    { exact HH. }
    { constructor. }
    cbn [bind]. assert (Epx : pth x = p) by (unfold pth; rewrite Ep; reflexivity).
    apply (IH _ (D ++ [x]) g').
    + etransitivity; [|exact HP]. rewrite <- app_assoc. apply Permutation_app_head. cbn [flat_map app].
      rewrite flat_map_app. destruct n as [|m] eqn:En; [lia|]. rewrite (sub_any h I (S m) (S (S m)) x) by (fold n; lia). rewrite <- En in *.
      cbn [sub]. constructor. rewrite En. apply Permutation_app_comm.
    + rewrite app_length. cbn [length]. lia.
    + rewrite flat_map_app. cbn [flat_map]. rewrite app_nil_r, Epx. eapply holds_ext; [| |exact HH']; intros r; cbn beta.
      * unfold tot_of. rewrite map_app, total_app. cbn [map]. unfold val at 3. rewrite Epf, Epx. unfold total at 3. cbn [fold_right]. lia.
      * unfold cnt_of. rewrite map_app, list_sum_app. cbn [map list_sum fold_right]. rewrite Ef, Epx. lia.
Qed.

Lemma list_sum_total l : Z.of_nat (list_sum l) = total (map Z.of_nat l).
Proof. unfold total. induction l as [|x l IH]; [reflexivity|]. cbn [list_sum fold_right map]. change (fold_right Nat.add 0 l) with (list_sum l). lia. Qed.

Lemma invert_spec' junk : exists g, invert junk h = Ok g /\ forall q, q <> [] ->
  ((exists i, frame_path g (Some i) (rev q)) <-> exists p, In p ps /\ begins q p) /\
  forall i f, frame_path g (Some i) (rev q) -> nth_error (frames g) i = Some f ->
    Z.of_nat (number_of_calls f) = sum_where (beginsb q) calls_value pfs /\ total_runtime f = sum_where (beginsb q) (self_value pfs) pfs.
Proof.
  unfold invert. rewrite (children_of_spec h None I Logic.I). cbn [bind].
  destruct (queue_spec (length (frames h)) (children (frames h) None) [] (History [] junk junk [])) as (D & g & E & HD & HH).
  - cbn [app]. exact (all_frames_perm h I).
  - fold n. lia.
  - constructor.
    + apply inv_new.
    + intros i q p s st t c _ (f & Ef & _). destruct i; discriminate Ef.
    + intros q [].
    + intros q _. split; reflexivity.
  - exists g. split; [exact E|]. intros q Hq. destruct HH as [Ig HS HHas HZ]. split.
    + split.
      * intros (i & Hi). destruct (says_ex g i Ig (path_valid _ _ _ Hi)) as (p & s & st & t & c & X). destruct (HS i _ _ _ _ _ _ Hi X) as (_ & _ & Hin).
        apply in_flat_map in Hin as (j & Hj & Hin). apply (Permutation_in _ HD), in_seq in Hj. destruct (all_nth j ltac:(lia)) as (pj & fj & Ep & _).
        unfold pth in Hin. rewrite Ep in Hin. exists pj. split; [eapply nth_error_In; eauto|]. apply begins_spec.
        assert (C : count_occ path_dec (grow [] pj) (rev q) > 0) by (apply count_occ_In, Hin). rewrite grow_count in C by exact Hq. destruct (beginsb q pj); [reflexivity|lia].
      * intros (p & Hp & Hb). apply HHas. apply In_nth_error in Hp as (j & Ej). apply in_flat_map. exists j. split.
        -- apply (Permutation_in _ (Permutation_sym HD)), in_seq. apply lt_nth in Ej. rewrite HL in Ej. fold n in Ej. lia.
        -- unfold pth. rewrite Ej. apply (count_occ_In path_dec). rewrite grow_count by exact Hq. apply begins_spec in Hb. rewrite Hb. lia.
    + intros i f Hi Ef. destruct (i_name g Ig i (path_valid _ _ _ Hi)) as (s & Es).
      destruct (HS i (rev q) (parent f) s (start_time f) (total_runtime f) (number_of_calls f) Hi) as (-> & -> & _); [exists f; repeat split; auto|]. split.
      * unfold cnt_of. rewrite list_sum_total, map_map, sum_where_val, pfs_len. rewrite (total_perm _ _ (Permutation_map _ HD)). apply total_ext. intros j Hj. apply in_seq in Hj.
        destruct (all_nth j ltac:(lia)) as (p & fj & Ep & Efj & Epf & _). unfold val, pth. rewrite Ep, Efj, Epf, grow_count by exact Hq. cbn [fst]. unfold calls_value. cbn [snd].
        destruct (beginsb q p); lia.
      * unfold tot_of. rewrite sum_where_val, pfs_len. rewrite (total_perm _ _ (Permutation_map _ HD)). apply total_ext. intros j Hj. apply in_seq in Hj.
        destruct (all_nth j ltac:(lia)) as (p & fj & Ep & Efj & Epf & _). unfold val, pth. rewrite Ep, Epf, grow_count by exact Hq. cbn [fst].
        destruct (beginsb q p); lia.
Qed.
End Invert.

(** * Any history of events *)
Lemma reachable es h : Forall proper es -> foldM do_event es new_history = Ok h -> exists s, story_of es = Some s /\ tracks h s.
Proof.
  intros HP E. unfold story_of. destruct (tell_all (Story [] [] []) es) as [s|] eqn:ES.
  - destruct (run_tracks es new_history _ s tracks_new HP ES) as (h' & E' & T). rewrite E in E'. injection E' as <-. eauto.
  - rewrite (run_excess es new_history _ tracks_new HP ES) in E. discriminate.
Qed.

Lemma history_spec es s : Forall proper es -> story_of es = Some s ->
  exists h, foldM do_event es new_history = Ok h /\
  frame_path h (current_frame h) (map fst (open s)) /\
  (forall i, i < length (frames h) -> exists p, frame_path h (Some i) p) /\
  (forall p, In p (started s) <-> exists i, frame_path h (Some i) p) /\
  (forall i j p, frame_path h (Some i) p -> frame_path h (Some j) p -> i = j) /\
  (forall i f p, nth_error (frames h) i = Some f -> frame_path h (Some i) p ->
     number_of_calls f = times_started s p /\ total_runtime f = time_spent s p).
Proof.
  intros HP ES. destruct (run_tracks es new_history _ s tracks_new HP ES) as (h & E & T). exists h. split; [exact E|]. destruct T as [I TC TN TH TO TF].
  split; [exact TC|]. split; [apply path_total, I|]. split; [|split].
  - intros p. split; [apply TH|]. intros (i & Hi). destruct (says_ex h i I (path_valid _ _ _ Hi)) as (pp & nm & st & t & c & X). eapply TN; eauto.
  - intros i j p Hi Hj. assert (Some i = Some j) by (eapply path_inj; eauto). congruence.
  - intros i f p Ef Hi. destruct (i_name h I i (path_valid _ _ _ Hi)) as (nm & Es).
    destruct (TN i p (parent f) nm (start_time f) (total_runtime f) (number_of_calls f) Hi) as (A & B & _); [exists f; repeat split; auto|]. auto.
Qed.
Lemma excess_spec es : Forall proper es -> story_of es = None -> foldM do_event es new_history = UB.
Proof. intros HP ES. exact (run_excess es new_history _ tracks_new HP ES). Qed.

Lemma walk_spec es h : Forall proper es -> foldM do_event es new_history = Ok h ->
  exists order, walk h = Ok order /\ Permutation order (seq 0 (length (frames h))) /\
  forall a x b, order = a ++ x :: b -> exists f, nth_error (frames h) x = Some f /\ match parent f with None => True | Some p => In p a end.
Proof.
  intros HP E. destruct (reachable es h HP E) as (s & _ & T). pose proof (t_inv h s T) as I. exists (all_frames h). split; [apply walk_all, I|].
  split; [apply all_frames_perm, I|]. apply all_parent, I.
Qed.
Lemma depths_reach es h : Forall proper es -> foldM do_event es new_history = Ok h ->
  exists ds, compute_depths h = Ok ds /\ length ds = length (frames h) /\
  forall i d p, nth_error ds i = Some d -> frame_path h (Some i) p -> length p = S d.
Proof. intros HP E. destruct (reachable es h HP E) as (s & _ & T). apply depths_spec, (t_inv h s T). Qed.

Lemma invert_reach es h ps junk : Forall proper es -> foldM do_event es new_history = Ok h -> are_paths h ps ->
  exists g, invert junk h = Ok g /\ forall q, q <> [] ->
  ((exists i, frame_path g (Some i) (rev q)) <-> exists p, In p ps /\ begins q p) /\
  forall i f, frame_path g (Some i) (rev q) -> nth_error (frames g) i = Some f ->
    Z.of_nat (number_of_calls f) = sum_where (beginsb q) calls_value (combine ps (frames h)) /\
    total_runtime f = sum_where (beginsb q) (self_value (combine ps (frames h))) (combine ps (frames h)).
Proof. intros HP E [HL HPs]. destruct (reachable es h HP E) as (s & _ & T). apply invert_spec'; [exact (t_inv h s T)|exact HL|exact HPs]. Qed.
