(** From every reachable configuration of sender discovery the ranks can go on to finish their calls. *)
From Verif Require Import Prelude M_Nbx S_Nbx P_Nbx.
Local Open Scope nat_scope.

Section P.
Variable dests : nat -> nat -> list nat.
Variable n : nat.
Hypothesis Hdests : forall k p d, In d (dests k p) -> d < n.
Variable K : nat.

Definition len (k p : nat) : nat := length (dests k p).
Definition ord (r : rank) : nat :=
  match at_ r with
  | Before => 0 | FirstBarrier => 1 | Sending _ => 2 | Polling _ false => 3 | Polling _ true => 4 | LastBarrier _ => 5
  end.
Definition pos (r : rank) : nat := 6 * call r + ord r.

Fixpoint base (p : nat) (fuel k : nat) : nat :=
  match fuel with O => 0 | S f => 6 + 2 * len k p + base p f (S k) end.
Definition inside (p : nat) (r : rank) : nat :=
  let l := len (call r) p in
  match at_ r with
  | Before => 0 | FirstBarrier => 1 | Sending i => 2 + 2 * Nat.min i l
  | Polling _ false => 3 + 2 * l | Polling _ true => 4 + 2 * l | LastBarrier _ => 5 + 2 * l
  end.
Definition rem (p : nat) (r : rank) : nat :=
  if call r <? K then 6 + 2 * len (call r) p - inside p r + base p (K - S (call r)) (S (call r)) else 0.

Fixpoint total (i : nat) (l : list rank) : nat :=
  match l with [] => 0 | r :: t => rem i r + total (S i) t end.
Definition measure (c : config) : nat := total 0 (ranks c) + length (wire c).

Lemma total_set : forall l i j r r', nth_error l j = Some r ->
  total i (list_set l j r') + rem (i + j) r = total i l + rem (i + j) r'.
Proof.
  induction l as [|x t IH]; intros i [|j] r r' E; try discriminate.
  - cbn in E. injection E as ->. cbn [list_set total]. rewrite Nat.add_0_r. lia.
  - cbn [nth_error] in E. cbn [list_set total]. specialize (IH (S i) j r r' E). replace (i + S j) with (S i + j) by lia. lia.
Qed.

Lemma measure_set c p r r' w : nth_error (ranks c) p = Some r -> 
  rem p r' + length w < rem p r + length (wire c) ->
  measure (Config (set_rank c p r') w) < measure c.
Proof.
  intros E H. unfold measure, set_rank. cbn [ranks wire]. pose proof (total_set _ 0 p r r' E) as T. cbn [Nat.add] in T. lia.
Qed.

Lemma exists_min : forall l, l <> [] -> exists p r, nth_error l p = Some r /\ forall q r', nth_error l q = Some r' -> pos r <= pos r'.
Proof.
  induction l as [|x t IH]; intros Hn; [congruence|]. destruct t as [|y t].
  - exists 0, x. split; [reflexivity|]. intros [|[|q]] r' E; cbn in E; try discriminate. injection E as ->. lia.
  - destruct IH as (p & r & E & Hm); [congruence|]. destruct (le_lt_dec (pos x) (pos r)) as [H|H].
    + exists 0, x. split; [reflexivity|]. intros [|q] r' E'; cbn [nth_error] in E'; [injection E' as ->; lia|]. specialize (Hm q r' E'). lia.
    + exists (S p), r. split; [exact E|]. intros [|q] r' E'; cbn [nth_error] in E'; [injection E' as ->; lia|exact (Hm q r' E')].
Qed.

Lemma progress c : inv dests n c -> (exists p r, nth_error (ranks c) p = Some r /\ call r < K) ->
  exists c', step dests c c' /\ measure c' < measure c.
Proof.
  intros I (p0 & r0 & E0 & H0).
  destruct (exists_min (ranks c)) as (p & r & E & Hm); [intros HN; rewrite HN in E0; destruct p0; discriminate|].
  assert (Hk : call r < K).
  { specialize (Hm p0 r0 E0). unfold pos, ord in Hm. destruct r as [[| | |? []|] ret1], r0 as [[| | |? []|] ret2]; cbn [at_] in Hm; lia. }
  assert (HkT : (call r <? K) = true) by (apply Nat.ltb_lt, Hk).
  destruct r as [[| |i|ss [|]|ss] ret]; unfold call in Hk, HkT; cbn [returned] in Hk, HkT.
  - eexists. split; [eapply Enter; [exact E|reflexivity]|]. eapply measure_set; [exact E|].
    unfold rem, inside, call. cbn [returned at_]. rewrite HkT. lia.
  - eexists. split; [eapply Begin; [exact E|reflexivity|]|].
    + intros q r' E'. specialize (Hm q r' E'). unfold pos, ord, entered_first, call in *. cbn [returned at_] in Hm.
      destruct r' as [[| | |? []|] ret1]; cbn [returned at_] in *; lia.
    + eapply measure_set; [exact E|]. unfold rem, inside, call. cbn [returned at_]. rewrite HkT. rewrite Nat.min_0_l. lia.
  - destruct (nth_error (dests (length ret) p) i) as [d|] eqn:Ed.
    + eexists. split; [eapply Issend; [exact E|reflexivity|exact Ed]|]. eapply measure_set; [exact E|].
      unfold rem, inside, call. cbn [returned at_]. rewrite HkT. cbn [length].
      assert (i < len (length ret) p) by (apply nth_error_Some; congruence). lia.
    + eexists. split; [eapply Posted; [exact E|reflexivity|exact Ed]|]. eapply measure_set; [exact E|].
      unfold rem, inside, call. cbn [returned at_]. rewrite HkT. apply nth_error_None in Ed. fold (len (length ret) p) in Ed. lia.
  - eexists. split; [eapply GloballyDone; [exact E|reflexivity|]|].
    + intros q r' E'. specialize (Hm q r' E'). unfold pos, ord, entered_middle, call in *. cbn [returned at_] in Hm.
      destruct r' as [[| | |? []|] ret1]; cbn [returned at_] in *; lia.
    + eapply measure_set; [exact E|]. unfold rem, inside, call. cbn [returned at_]. rewrite HkT. lia.
  - assert (Hdec : (exists d, In (p, d) (wire c)) \/ forall d, ~ In (p, d) (wire c)).
    { clear. induction (wire c) as [|[a b] w IH]; [right; intros d []|]. destruct (Nat.eq_dec a p) as [->|Hn].
      - left. exists b. left. reflexivity.
      - destruct IH as [(d & Hd)|Hw]; [left; exists d; right; exact Hd|]. right. intros d [H|H]; [congruence|exact (Hw d H)]. }
    destruct Hdec as [(d & Hd)|Hw].
    + destruct (i_wire dests n c I p d Hd) as (Hdn & rs & Es & Hsend). assert (rs = Rank (Polling ss false) ret) by congruence. subst rs.
      destruct (nth_error (ranks c) d) as [rd|] eqn:Er; [|apply nth_error_None in Er; rewrite (i_len dests n c I) in Er; lia].
      pose proof (Hm d rd Er) as Hpd.
      pose proof (i_middle dests n c I d p rd _ Er E) as M1.
      pose proof (i_first dests n c I p d _ rd E Er Logic.I) as M2.
      assert (HP : exists ss' done ret', rd = Rank (Polling ss' done) ret' /\ length ret' = length ret).
      { assert (HF : past_first rd -> call rd < entered_first (Rank (Polling ss false) ret)) by (intros HF; exact (i_first dests n c I d p rd _ Er E HF)).
        unfold pos, ord, entered_middle, entered_last, entered_first, past_first, call in *. cbn [returned at_] in *.
        destruct rd as [[| |?|ss' [|]|?] ret']; cbn [returned at_] in *; try lia.
        - exists ss', true, ret'. split; [reflexivity|]. specialize (HF Logic.I). lia.
        - exists ss', false, ret'. split; [reflexivity|]. specialize (HF Logic.I). lia. }
      destruct HP as (ss' & done & ret' & -> & HL).
      apply in_split in Hd as (w1 & w2 & Ew).
      eexists. split; [eapply Receive; [exact Er|exact Ew]|]. eapply measure_set; [exact Er|].
      rewrite Ew, !app_length. cbn [length]. unfold rem, inside, call. cbn [returned at_]. lia.
    + eexists. split; [eapply LocallyDone; [exact E|exact Hw]|]. eapply measure_set; [exact E|].
      unfold rem, inside, call. cbn [returned at_]. rewrite HkT. lia.
  - eexists. split; [eapply Return; [exact E|reflexivity|]|].
    + intros q r' E'. specialize (Hm q r' E'). unfold pos, ord, entered_last, call in *. cbn [returned at_] in Hm.
      destruct r' as [[| | |? []|] ret1]; cbn [returned at_] in *; lia.
    + eapply measure_set; [exact E|]. unfold rem, inside, call. cbn [returned at_]. rewrite HkT, app_length. cbn [length].
      rewrite Nat.add_1_r. destruct (Nat.ltb_spec (S (length ret)) K) as [H|H].
      * replace (K - S (length ret)) with (S (K - S (S (length ret)))) by lia. cbn [base]. lia.
      * lia.
Qed.

Lemma decide_all (l : list rank) : (exists p r, nth_error l p = Some r /\ call r < K) \/ (forall p r, nth_error l p = Some r -> K <= call r).
Proof.
  induction l as [|x t IH]; [right; intros [|p] r E; discriminate|]. destruct (le_lt_dec K (call x)) as [H|H].
  - destruct IH as [(p & r & E & Hr)|IH]; [left; exists (S p), r; auto|]. right. intros [|p] r E; cbn [nth_error] in E.
    + injection E as ->. exact H.
    + exact (IH p r E).
  - left. exists 0, x. auto.
Qed.

Lemma steps_trans c d e : steps dests c d -> steps dests d e -> steps dests c e.
Proof. intros H1 H2. induction H2 as [|d f e _ IH Hs]; [exact H1|]. exact (steps_more dests c f e (IH H1) Hs). Qed.

Lemma can_finish_from : forall m c, measure c <= m -> inv dests n c ->
  exists c', steps dests c c' /\ forall p r, nth_error (ranks c') p = Some r -> K <= call r.
Proof.
  induction m as [|m IH]; intros c Hc I; destruct (decide_all (ranks c)) as [H|H].
  - destruct (progress c I H) as (c' & _ & Hl). lia.
  - exists c. split; [constructor|exact H].
  - destruct (progress c I H) as (c1 & Hs & Hl).
    destruct (IH c1) as (c' & Hs' & Hf); [lia|exact (inv_step dests n Hdests c c1 I Hs)|].
    exists c'. split; [|exact Hf]. apply (steps_trans c c1 c'); [|exact Hs']. exact (steps_more dests c c c1 (steps_refl dests c) Hs).
  - exists c. split; [constructor|exact H].
Qed.
End P.

Lemma nbx_correct dests n c p r k l : (forall k q d, In d (dests k q) -> d < n) -> steps dests (start n) c ->
  nth_error (ranks c) p = Some r -> nth_error (returned r) k = Some l -> lists_senders (dests k) n p l.
Proof.
  intros Hd Hs. apply (returned_senders dests n Hd c). exact (inv_steps dests n Hd (start n) c Hs (inv_start dests n Hd)).
Qed.

Lemma nbx_finishes dests n c K : (forall k q d, In d (dests k q) -> d < n) -> steps dests (start n) c ->
  exists c', steps dests c c' /\ length (ranks c') = n /\ forall p r, nth_error (ranks c') p = Some r -> K <= length (returned r).
Proof.
  intros Hd Hs. assert (I : inv dests n c) by exact (inv_steps dests n Hd (start n) c Hs (inv_start dests n Hd)).
  destruct (can_finish_from dests n Hd K _ c (le_n _) I) as (c' & H1 & H2). exists c'. split; [exact H1|].
  split; [|exact H2]. exact (i_len dests n c' (inv_steps dests n Hd c c' H1 I)).
Qed.
