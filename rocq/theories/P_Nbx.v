From Verif Require Import Prelude M_Nbx S_Nbx.
Local Open Scope nat_scope.

Lemma insert_perm x l : Permutation (insert x l) (x :: l).
Proof.
  induction l as [|y t IH]; [reflexivity|]. cbn [insert]. destruct (x <=? y); [reflexivity|].
  rewrite IH. apply perm_swap.
Qed.
Lemma sort_perm l : Permutation (sort l) l.
Proof. induction l as [|x t IH]; [reflexivity|]. cbn. rewrite insert_perm. constructor. exact IH. Qed.
Lemma insert_sorted x l : StronglySorted le l -> StronglySorted le (insert x l).
Proof.
  induction 1 as [|y t HS IH HF]; cbn [insert]; [repeat constructor|].
  destruct (Nat.leb_spec x y) as [H|H].
  - constructor; [constructor; assumption|]. constructor; [exact H|].
    rewrite Forall_forall in *. intros z Hz. specialize (HF z Hz). lia.
  - constructor; [exact IH|]. rewrite Forall_forall in *. intros z Hz.
    apply (Permutation_in _ (insert_perm x t)) in Hz as [<-|Hz]; [lia|auto].
Qed.
Lemma sort_sorted l : StronglySorted le (sort l).
Proof. induction l as [|x t IH]; [constructor|]. apply insert_sorted, IH. Qed.

Lemma nth_set_eq {A} (l : list A) p x y : nth_error l p = Some x -> nth_error (list_set l p y) p = Some y.
Proof. revert p. induction l as [|a t IH]; intros [|p] E; try discriminate; cbn in *; auto. Qed.
Lemma nth_set_ne {A} (l : list A) p q y : p <> q -> nth_error (list_set l p y) q = nth_error l q.
Proof. revert p q. induction l as [|a t IH]; intros [|p] [|q] E; cbn in *; auto; try congruence. Qed.
Lemma length_set {A} (l : list A) p y : length (list_set l p y) = length l.
Proof. revert p. induction l as [|a t IH]; intros [|p]; cbn; auto. Qed.
(* a case split on an entry of an updated list *)
Lemma nth_set {A} (l : list A) p q x y z : nth_error l p = Some x -> nth_error (list_set l p y) q = Some z ->
  q = p /\ z = y \/ q <> p /\ nth_error l q = Some z.
Proof.
  intros E H. destruct (Nat.eq_dec q p) as [->|Hn].
  - rewrite (nth_set_eq _ _ _ _ E) in H. left. split; congruence.
  - rewrite nth_set_ne in H by congruence. auto.
Qed.

Definition pair_dec (a b : nat * nat) : {a = b} + {a <> b}.
Proof. decide equality; apply Nat.eq_dec. Defined.
Notation cnt := (count_occ Nat.eq_dec).
Notation cnt2 := (count_occ pair_dec).

Section P.
Variable dests : nat -> nat -> list nat.
Variable n : nat.
Hypothesis Hdests : forall k p d, In d (dests k p) -> d < n.

(* what a rank has received, and sent, in its call number k *)
Definition sources_of (r : rank) : list nat :=
  match at_ r with Polling s _ => s | LastBarrier s => s | _ => [] end.
Definition recv (r : rank) (k : nat) : list nat :=
  match nth_error (returned r) k with
  | Some l => l
  | None => if k =? call r then sources_of r else []
  end.
Definition sent (p : nat) (r : rank) (k : nat) : list nat :=
  if k <? call r then dests k p
  else if k =? call r then
    match at_ r with
    | Sending i => firstn i (dests k p)
    | Polling _ _ | LastBarrier _ => dests k p
    | _ => []
    end
  else [].

Definition sending (r : rank) : Prop :=
  match at_ r with Sending _ => True | Polling _ false => True | _ => False end.
Definition past_first (r : rank) : Prop :=
  match at_ r with Before | FirstBarrier => False | _ => True end.

Record inv (c : config) : Prop := Inv {
  i_len : length (ranks c) = n;
  (* messages are conserved *)
  i_count : forall k s d rs rd, nth_error (ranks c) s = Some rs -> nth_error (ranks c) d = Some rd ->
    cnt (recv rd k) s + (if k =? call rs then cnt2 (wire c) (s, d) else 0) = cnt (sent s rs k) d;
  (* a message on the wire comes from a rank still trying to send it, and goes to a rank *)
  i_wire : forall s d, In (s, d) (wire c) -> d < n /\ exists rs, nth_error (ranks c) s = Some rs /\ sending rs;
  i_alien : forall k d rd s, nth_error (ranks c) d = Some rd -> In s (recv rd k) -> s < n;
  (* barriers *)
  i_first : forall p q r r', nth_error (ranks c) p = Some r -> nth_error (ranks c) q = Some r' ->
    past_first r -> call r < entered_first r';
  i_middle : forall p q r r', nth_error (ranks c) p = Some r -> nth_error (ranks c) q = Some r' ->
    entered_last r <= entered_middle r';
  i_last : forall p q r r', nth_error (ranks c) p = Some r -> nth_error (ranks c) q = Some r' ->
    call r <= entered_last r';
  i_sorted : forall d rd l, nth_error (ranks c) d = Some rd -> In l (returned rd) -> StronglySorted le l
}.

Lemma inv_start : inv (start n).
Proof.
  assert (R : forall p r, nth_error (repeat (Rank Before []) n) p = Some r -> r = Rank Before []).
  { intros p r E. apply nth_error_In in E. apply repeat_spec in E. exact E. }
  constructor; cbn [ranks wire start]; intros.
  - apply repeat_length.
  - apply R in H as ->. apply R in H0 as ->. unfold recv, sent, call. cbn. destruct k; reflexivity.
  - destruct H.
  - apply R in H as ->. unfold recv, call in H0. cbn in H0. destruct k; destruct H0.
  - apply R in H as ->. destruct H1.
  - apply R in H as ->. apply R in H0 as ->. cbn. lia.
  - apply R in H as ->. cbn. lia.
  - apply R in H as ->. destruct H0.
Qed.

Ltac cases H E N K := destruct (nth_set _ _ _ _ _ _ E H) as [[-> ->]|[N K]].

(* the receive of a step takes a message of the receiver's own call *)
Lemma same_call c s p rs rp : inv c -> nth_error (ranks c) s = Some rs -> nth_error (ranks c) p = Some rp ->
  sending rs -> past_first rp -> match at_ rp with LastBarrier _ => False | _ => True end -> call rs = call rp.
Proof.
  intros I Es Ep Hs Hp Hl.
  assert (past_first rs) as Hs' by (destruct rs as [[]]; cbn in *; auto).
  pose proof (i_first c I s p rs rp Es Ep Hs') as F1.
  pose proof (i_first c I p s rp rs Ep Es Hp) as F2.
  pose proof (i_middle c I p s rp rs Ep Es) as M.
  unfold entered_first, entered_middle, entered_last, sending, past_first in *.
  destruct rs as [[| | |? []|] l1], rp as [[| | |? []|] l2]; cbn [at_] in *; unfold call in *; cbn [returned] in *; try contradiction; lia.
Qed.

(* steps that move one rank within its call and leave the messages alone *)
Lemma inv_move c p st st' ret : inv c -> nth_error (ranks c) p = Some (Rank st ret) ->
  sources_of (Rank st ret) = sources_of (Rank st' ret) ->
  (forall d, cnt (sent p (Rank st ret) (length ret)) d = cnt (sent p (Rank st' ret) (length ret)) d) ->
  entered_first (Rank st ret) <= entered_first (Rank st' ret) ->
  entered_middle (Rank st ret) <= entered_middle (Rank st' ret) ->
  entered_last (Rank st ret) <= entered_last (Rank st' ret) ->
  (sending (Rank st ret) -> sending (Rank st' ret) \/ forall d, ~ In (p, d) (wire c)) ->
  (past_first (Rank st' ret) -> past_first (Rank st ret) \/
     forall q r, nth_error (ranks c) q = Some r -> length ret < entered_first r) ->
  (entered_last (Rank st' ret) = entered_last (Rank st ret) \/
     forall q r, nth_error (ranks c) q = Some r -> entered_last (Rank st' ret) <= entered_middle r) ->
  inv (Config (set_rank c p (Rank st' ret)) (wire c)).
Proof.
  intros I E Hsrc Hsent HF HM HL Hsnd Hpf Hlast. unfold set_rank.
  assert (Hrecv : forall k, recv (Rank st' ret) k = recv (Rank st ret) k) by (intros k; unfold recv, call; cbn [returned]; rewrite Hsrc; reflexivity).
  assert (Hst : forall k d, cnt (sent p (Rank st' ret) k) d = cnt (sent p (Rank st ret) k) d).
  { intros k d. destruct (Nat.eq_dec k (length ret)) as [->|Hn]; [symmetry; apply Hsent|].
    unfold sent, call. cbn [returned]. destruct (k <? length ret); [reflexivity|]. apply Nat.eqb_neq in Hn. rewrite Hn. reflexivity. }
  constructor; cbn [ranks wire].
  - rewrite length_set. apply (i_len c I).
  - intros k s d rs rd H1 H2. cases H1 E N1 K1; cases H2 E N2 K2; rewrite ?Hst, ?Hrecv;
      [exact (i_count c I k p p _ _ E E)|exact (i_count c I k p d _ _ E K2)|exact (i_count c I k s p _ _ K1 E)|eapply (i_count c I k); eassumption].
  - intros s d Hw. destruct (i_wire c I s d Hw) as (Hd & rs & Es & Hs). split; [exact Hd|].
    destruct (Nat.eq_dec s p) as [->|Hn].
    + rewrite E in Es. assert (rs = Rank st ret) by congruence. subst. exists (Rank st' ret). split; [exact (nth_set_eq _ _ _ _ E)|].
      destruct (Hsnd Hs) as [H|H]; [exact H|]. destruct (H d Hw).
    + exists rs. rewrite nth_set_ne by congruence. auto.
  - intros k d rd s H1 H2. cases H1 E N1 K1; [|eapply (i_alien c I); eassumption]. rewrite Hrecv in H2. exact (i_alien c I k p _ s E H2).
  - intros a b r r' H1 H2 Hp. cases H1 E N1 K1; cases H2 E N2 K2.
    + destruct (Hpf Hp) as [H|H]; [pose proof (i_first c I p p _ _ E E H); unfold call in *; cbn [returned] in *; lia|].
      specialize (H p _ E). unfold call; cbn [returned]. lia.
    + destruct (Hpf Hp) as [H|H]; [exact (i_first c I p b _ _ E K2 H)|exact (H b _ K2)].
    + pose proof (i_first c I a p _ _ K1 E Hp). lia.
    + exact (i_first c I a b _ _ K1 K2 Hp).
  - intros a b r r' H1 H2. cases H1 E N1 K1; cases H2 E N2 K2.
    + destruct Hlast as [->|H]; [pose proof (i_middle c I p p _ _ E E); lia|]. specialize (H p _ E). lia.
    + destruct Hlast as [->|H]; [exact (i_middle c I p b _ _ E K2)|exact (H b _ K2)].
    + pose proof (i_middle c I a p _ _ K1 E). lia.
    + exact (i_middle c I a b _ _ K1 K2).
  - intros a b r r' H1 H2. cases H1 E N1 K1; cases H2 E N2 K2.
    + apply Nat.le_add_r.
    + exact (i_last c I p b _ _ E K2).
    + pose proof (i_last c I a p _ _ K1 E). lia.
    + exact (i_last c I a b _ _ K1 K2).
  - intros d rd l H1 H2. cases H1 E N1 K1; [exact (i_sorted c I p _ l E H2)|exact (i_sorted c I d _ l K1 H2)].
Qed.

Lemma cnt2_cons_eq w s d : cnt2 ((s, d) :: w) (s, d) = S (cnt2 w (s, d)).
Proof. apply count_occ_cons_eq. reflexivity. Qed.

Lemma nth_sent p ret i d : nth_error (dests (length ret) p) i = Some d ->
  sent p (Rank (Sending (S i)) ret) (length ret) = sent p (Rank (Sending i) ret) (length ret) ++ [d].
Proof.
  intros E. unfold sent, call. cbn [returned at_]. rewrite Nat.ltb_irrefl, Nat.eqb_refl.
  revert i E. generalize (dests (length ret) p) as l. induction l as [|x t IH]; intros [|i] E; try discriminate.
  - cbn in E. injection E as ->. reflexivity.
  - cbn [nth_error] in E. cbn [firstn app]. f_equal. exact (IH i E).
Qed.

Lemma inv_issend c p ret i d : inv c -> nth_error (ranks c) p = Some (Rank (Sending i) ret) ->
  nth_error (dests (length ret) p) i = Some d ->
  inv (Config (set_rank c p (Rank (Sending (S i)) ret)) ((p, d) :: wire c)).
Proof.
  intros I E Ed. unfold set_rank. constructor; cbn [ranks wire].
  - rewrite length_set. apply (i_len c I).
  - assert (Hr : forall k, recv (Rank (Sending (S i)) ret) k = recv (Rank (Sending i) ret) k) by reflexivity.
    assert (X : forall k q rq, nth_error (ranks c) q = Some rq ->
      cnt (recv rq k) p + (if k =? call (Rank (Sending (S i)) ret) then cnt2 ((p, d) :: wire c) (p, q) else 0)
      = cnt (sent p (Rank (Sending (S i)) ret) k) q).
    { intros k q rq Eq. pose proof (i_count c I k p q _ _ E Eq) as C. change (call (Rank (Sending (S i)) ret)) with (length ret).
      change (call (Rank (Sending i) ret)) with (length ret) in C.
      destruct (Nat.eqb_spec k (length ret)) as [->|Hn].
      - rewrite (nth_sent p ret i d Ed), count_occ_app, <- C.
        destruct (Nat.eq_dec d q) as [->|Hd].
        + rewrite cnt2_cons_eq. cbn [count_occ]. destruct (Nat.eq_dec q q); [lia|congruence].
        + rewrite count_occ_cons_neq by congruence. cbn [count_occ]. destruct (Nat.eq_dec d q); [congruence|lia].
      - rewrite C. unfold sent, call. cbn [returned]. destruct (k <? length ret); [reflexivity|]. apply Nat.eqb_neq in Hn. rewrite Hn. reflexivity. }
    intros k s q rs rq H1 H2. cases H1 E N1 K1; cases H2 E N2 K2.
    + rewrite Hr. apply X. exact E.
    + apply X. exact K2.
    + rewrite count_occ_cons_neq by congruence. rewrite Hr. exact (i_count c I k s p _ _ K1 E).
    + rewrite count_occ_cons_neq by congruence. exact (i_count c I k s q _ _ K1 K2).
  - intros s q [Ew|Hw].
    + assert (s = p /\ q = d) as [-> ->] by (split; congruence). split; [exact (Hdests _ _ _ (nth_error_In _ _ Ed))|].
      eexists. split; [exact (nth_set_eq _ _ _ _ E)|]. exact Logic.I.
    + destruct (i_wire c I s q Hw) as (Hd & rs & Es & Hs). split; [exact Hd|].
      destruct (Nat.eq_dec s p) as [->|Hn].
      * eexists. split; [exact (nth_set_eq _ _ _ _ E)|]. exact Logic.I.
      * exists rs. rewrite nth_set_ne by congruence. auto.
  - intros k q rq s H1 H2. cases H1 E N1 K1; [exact (i_alien c I k p _ s E H2)|exact (i_alien c I k q _ s K1 H2)].
  - intros a b r r' H1 H2 Hp. cases H1 E N1 K1; cases H2 E N2 K2.
    + exact (i_first c I p p _ _ E E Logic.I).
    + exact (i_first c I p b _ _ E K2 Logic.I).
    + exact (i_first c I a p _ _ K1 E Hp).
    + exact (i_first c I a b _ _ K1 K2 Hp).
  - intros a b r r' H1 H2. cases H1 E N1 K1; cases H2 E N2 K2.
    + exact (i_middle c I p p _ _ E E).
    + exact (i_middle c I p b _ _ E K2).
    + exact (i_middle c I a p _ _ K1 E).
    + exact (i_middle c I a b _ _ K1 K2).
  - intros a b r r' H1 H2. cases H1 E N1 K1; cases H2 E N2 K2.
    + exact (i_last c I p p _ _ E E).
    + exact (i_last c I p b _ _ E K2).
    + exact (i_last c I a p _ _ K1 E).
    + exact (i_last c I a b _ _ K1 K2).
  - intros q rq l H1 H2. cases H1 E N1 K1; [exact (i_sorted c I p _ l E H2)|exact (i_sorted c I q _ l K1 H2)].
Qed.

Lemma recv_polling ss done ret k s :
  recv (Rank (Polling (ss ++ [s]) done) ret) k = recv (Rank (Polling ss done) ret) k ++ (if k =? length ret then [s] else []).
Proof.
  unfold recv, call. cbn [returned]. unfold sources_of. cbn [at_]. destruct (nth_error ret k) eqn:E.
  - assert (k < length ret) by (apply nth_error_Some; congruence). replace (k =? length ret) with false by (symmetry; apply Nat.eqb_neq; lia).
    rewrite app_nil_r. reflexivity.
  - destruct (k =? length ret); [reflexivity|]. reflexivity.
Qed.

Lemma inv_receive c p ret ss done s w1 w2 : inv c ->
  nth_error (ranks c) p = Some (Rank (Polling ss done) ret) -> wire c = w1 ++ (s, p) :: w2 ->
  inv (Config (set_rank c p (Rank (Polling (ss ++ [s]) done) ret)) (w1 ++ w2)).
Proof.
  intros I E Ew. unfold set_rank. set (old := Rank (Polling ss done) ret). set (new := Rank (Polling (ss ++ [s]) done) ret).
  assert (Hin : In (s, p) (wire c)) by (rewrite Ew; apply in_or_app; right; left; reflexivity).
  destruct (i_wire c I s p Hin) as (Hpn & r0 & Es & Hsend).
  assert (Hcall : call r0 = length ret).
  { rewrite (same_call c s p r0 old I Es E Hsend); [reflexivity|exact Logic.I|exact Logic.I]. }
  assert (Hsn : s < n) by (rewrite <- (i_len c I); apply nth_error_Some; congruence).
  assert (Hw : forall a b, cnt2 (wire c) (a, b) = cnt2 (w1 ++ w2) (a, b) + (if pair_dec (s, p) (a, b) then 1 else 0)).
  { intros a b. rewrite Ew, !count_occ_app. cbn [count_occ]. destruct (pair_dec (s, p) (a, b)); lia. }
  assert (Hc : forall k q rq, nth_error (ranks c) q = Some rq -> 
     cnt (recv new k) q + (if k =? call rq then cnt2 (w1 ++ w2) (q, p) else 0) = cnt (sent q rq k) p).
  { intros k q rq Eq. pose proof (i_count c I k q p _ _ Eq E) as C. fold old in C. unfold new. rewrite recv_polling. fold old.
    rewrite count_occ_app. rewrite Hw in C. destruct (pair_dec (s, p) (q, p)) as [Ee|Ne].
    - assert (q = s) by congruence. subst q. assert (rq = r0) by congruence. subst rq. rewrite Hcall. rewrite Hcall in C.
      destruct (Nat.eqb_spec k (length ret)) as [Hk|Hn]; cbn [count_occ].
      + destruct (Nat.eq_dec s s); [lia|congruence].
      + lia.
    - assert (s <> q) by congruence. destruct (k =? length ret); cbn [count_occ]; [destruct (Nat.eq_dec s q); [congruence|]|];
      destruct (k =? call rq); lia. }
  assert (Hsent : forall k, sent p new k = sent p old k) by reflexivity.
  assert (Hcallp : call new = call old) by reflexivity.
  constructor; cbn [ranks wire].
  - rewrite length_set. apply (i_len c I).
  - intros k a b ra rb H1 H2. cases H1 E N1 K1; cases H2 E N2 K2.
    + rewrite Hsent. exact (Hc k p old E).
    + pose proof (i_count c I k p b _ _ E K2) as C. rewrite Hw in C. destruct (pair_dec (s, p) (p, b)); [congruence|].
      rewrite Hsent. change (call new) with (call old). fold old in C. destruct (k =? call old); lia.
    + exact (Hc k a ra K1).
    + pose proof (i_count c I k a b _ _ K1 K2) as C. rewrite Hw in C. destruct (pair_dec (s, p) (a, b)); [congruence|].
      destruct (k =? call ra); lia.
  - intros a b Hab. assert (Hab' : In (a, b) (wire c)) by (rewrite Ew; apply in_app_or in Hab as [H|H]; apply in_or_app; [left|right; right]; exact H).
    destruct (i_wire c I a b Hab') as (Hb & ra & Ea & Ha). split; [exact Hb|].
    destruct (Nat.eq_dec a p) as [->|Hn].
    + exists new. split; [exact (nth_set_eq _ _ _ _ E)|]. assert (ra = old) by (unfold old; congruence). subst ra. exact Ha.
    + exists ra. rewrite nth_set_ne by congruence. auto.
  - intros k q rq x H1 H2. cases H1 E N1 K1; [|exact (i_alien c I k q _ x K1 H2)].
    unfold new in H2. rewrite recv_polling in H2. apply in_app_or in H2 as [H|H]; [exact (i_alien c I k p _ x E H)|].
    destruct (k =? length ret); [destruct H as [<-|[]]; exact Hsn|destruct H].
  - intros a b r r' H1 H2 Hp. cases H1 E N1 K1; cases H2 E N2 K2.
    + exact (i_first c I p p _ _ E E Logic.I).
    + exact (i_first c I p b _ _ E K2 Logic.I).
    + exact (i_first c I a p _ _ K1 E Hp).
    + exact (i_first c I a b _ _ K1 K2 Hp).
  - intros a b r r' H1 H2. cases H1 E N1 K1; cases H2 E N2 K2.
    + exact (i_middle c I p p _ _ E E).
    + exact (i_middle c I p b _ _ E K2).
    + exact (i_middle c I a p _ _ K1 E).
    + exact (i_middle c I a b _ _ K1 K2).
  - intros a b r r' H1 H2. cases H1 E N1 K1; cases H2 E N2 K2.
    + exact (i_last c I p p _ _ E E).
    + exact (i_last c I p b _ _ E K2).
    + exact (i_last c I a p _ _ K1 E).
    + exact (i_last c I a b _ _ K1 K2).
  - intros q rq l H1 H2. cases H1 E N1 K1; [exact (i_sorted c I p _ l E H2)|exact (i_sorted c I q _ l K1 H2)].
Qed.

Lemma recv_return ss ret k :
  Permutation (recv (Rank Before (ret ++ [sort ss])) k) (recv (Rank (LastBarrier ss) ret) k).
Proof.
  unfold recv, call, sources_of. cbn [returned at_]. destruct (Nat.lt_trichotomy k (length ret)) as [H|[->|H]].
  - rewrite nth_error_app1 by exact H. destruct (nth_error ret k) eqn:E; [reflexivity|]. apply nth_error_None in E. lia.
  - rewrite nth_error_app2 by lia. rewrite Nat.sub_diag. cbn [nth_error].
    destruct (nth_error ret (length ret)) eqn:E; [assert (length ret < length ret) by (apply nth_error_Some; congruence); lia|].
    rewrite Nat.eqb_refl. apply sort_perm.
  - destruct (nth_error (ret ++ [sort ss]) k) eqn:E.
    + assert (k < length (ret ++ [sort ss])) by (apply nth_error_Some; congruence). rewrite app_length in *. cbn in *. lia.
    + destruct (nth_error ret k) eqn:E'; [assert (k < length ret) by (apply nth_error_Some; congruence); lia|].
      replace (k =? length ret) with false by (symmetry; apply Nat.eqb_neq; lia).
      destruct (k =? length (ret ++ [sort ss])); reflexivity.
Qed.

Lemma perm_cnt l m s : Permutation l m -> cnt l s = cnt m s.
Proof. intros P. apply (Permutation_count_occ Nat.eq_dec). exact P. Qed.

Lemma inv_return c p ret ss : inv c -> nth_error (ranks c) p = Some (Rank (LastBarrier ss) ret) ->
  (forall q r, nth_error (ranks c) q = Some r -> length ret < entered_last r) ->
  inv (Config (set_rank c p (Rank Before (ret ++ [sort ss]))) (wire c)).
Proof.
  intros I E HL. unfold set_rank. set (old := Rank (LastBarrier ss) ret) in *. set (new := Rank Before (ret ++ [sort ss])).
  assert (Hnw : forall d, ~ In (p, d) (wire c)).
  { intros d Hd. destruct (i_wire c I p d Hd) as (_ & r & Er & Hr). assert (r = old) by congruence. subst r. exact Hr. }
  assert (Hcn : call new = S (length ret)) by (unfold call, new; cbn [returned]; rewrite app_length; cbn; lia).
  assert (Hsent : forall k, sent p new k = sent p old k).
  { intros k. unfold sent. rewrite Hcn. change (call old) with (length ret). unfold new, old. cbn [at_].
    destruct (Nat.lt_trichotomy k (length ret)) as [H|[->|H]].
    - replace (k <? S (length ret)) with true by (symmetry; apply Nat.ltb_lt; lia).
      replace (k <? length ret) with true by (symmetry; apply Nat.ltb_lt; lia). reflexivity.
    - replace (length ret <? S (length ret)) with true by (symmetry; apply Nat.ltb_lt; lia).
      rewrite Nat.ltb_irrefl, Nat.eqb_refl. reflexivity.
    - replace (k <? S (length ret)) with false by (symmetry; apply Nat.ltb_ge; lia).
      replace (k <? length ret) with false by (symmetry; apply Nat.ltb_ge; lia).
      replace (k =? length ret) with false by (symmetry; apply Nat.eqb_neq; lia).
      destruct (k =? S (length ret)); reflexivity. }
  assert (H0 : forall d, cnt2 (wire c) (p, d) = 0) by (intros d; apply count_occ_not_In, Hnw).
  assert (Hrecv : forall k x, cnt (recv new k) x = cnt (recv old k) x) by (intros k x; apply perm_cnt, recv_return).
  constructor; cbn [ranks wire].
  - rewrite length_set. apply (i_len c I).
  - intros k a b ra rb H1 H2. cases H1 E N1 K1; cases H2 E N2 K2.
    + rewrite Hsent, Hrecv, H0. pose proof (i_count c I k p p _ _ E E) as C. rewrite H0 in C. 
      fold old in C. destruct (k =? call new), (k =? call old); exact C.
    + rewrite Hsent, H0. pose proof (i_count c I k p b _ _ E K2) as C. rewrite H0 in C. destruct (k =? call new), (k =? call old); exact C.
    + rewrite Hrecv. exact (i_count c I k a p _ _ K1 E).
    + exact (i_count c I k a b _ _ K1 K2).
  - intros a b Hab. destruct (i_wire c I a b Hab) as (Hb & ra & Ea & Ha). split; [exact Hb|].
    destruct (Nat.eq_dec a p) as [->|Hn]; [destruct (Hnw b Hab)|].
    exists ra. rewrite nth_set_ne by congruence. auto.
  - intros k q rq x H1 H2. cases H1 E N1 K1; [|exact (i_alien c I k q _ x K1 H2)].
    apply (i_alien c I k p _ x E). exact (Permutation_in _ (recv_return ss ret k) H2).
  - intros a b r r' H1 H2 Hp. cases H1 E N1 K1; cases H2 E N2 K2.
    + destruct Hp.
    + destruct Hp.
    + pose proof (i_first c I a p _ _ K1 E Hp) as F. change (entered_first old) with (length ret + 1) in F.
      assert (entered_first new = S (length ret)) by (unfold entered_first; rewrite Hcn; exact (Nat.add_0_r _)). lia.
    + exact (i_first c I a b _ _ K1 K2 Hp).
  - assert (Hlo : entered_last new = S (length ret)) by (unfold entered_last; rewrite Hcn; exact (Nat.add_0_r _)).
    assert (Hmi : entered_middle new = S (length ret)) by (unfold entered_middle; rewrite Hcn; exact (Nat.add_0_r _)).
    intros a b r r' H1 H2. cases H1 E N1 K1; cases H2 E N2 K2.
    + lia.
    + pose proof (i_middle c I p b _ _ E K2) as M. change (entered_last old) with (length ret + 1) in M. lia.
    + pose proof (i_middle c I a p _ _ K1 E) as M. change (entered_middle old) with (length ret + 1) in M. lia.
    + exact (i_middle c I a b _ _ K1 K2).
  - assert (Hlo : entered_last new = S (length ret)) by (unfold entered_last; rewrite Hcn; exact (Nat.add_0_r _)).
    intros a b r r' H1 H2. cases H1 E N1 K1; cases H2 E N2 K2.
    + lia.
    + specialize (HL b _ K2). lia.
    + pose proof (i_last c I a p _ _ K1 E) as M. change (entered_last old) with (length ret + 1) in M. lia.
    + exact (i_last c I a b _ _ K1 K2).
  - intros q rq l H1 H2. cases H1 E N1 K1; [|exact (i_sorted c I q _ l K1 H2)].
    unfold new in H2; cbn [returned] in H2. apply in_app_or in H2 as [H|[<-|[]]]; [exact (i_sorted c I p _ l E H)|apply sort_sorted].
Qed.

Lemma sent_all p ret i : nth_error (dests (length ret) p) i = None ->
  sent p (Rank (Sending i) ret) (length ret) = sent p (Rank (Polling [] false) ret) (length ret).
Proof.
  intros E. unfold sent, call. cbn [returned at_]. rewrite Nat.ltb_irrefl, Nat.eqb_refl. apply firstn_all2.
  apply nth_error_None, E.
Qed.

Lemma inv_step c c' : inv c -> step dests c c' -> inv c'.
Proof.
  intros I H. destruct H as [p k ret E Ek|p k ret E Ek HB|p k ret i d E Ek Ed|p k ret i E Ek Ed|p ret ss done s w1 w2 E Ew|p ret ss E Hw|p k ret ss E Ek HB|p k ret ss E Ek HB]; try subst k.
  - eapply inv_move; [exact I|exact E|..]; unfold entered_first, entered_middle, entered_last, sent, call, sources_of, sending, past_first; cbn [at_ returned]; auto; try lia.
  - eapply inv_move; [exact I|exact E|..]; unfold entered_middle, entered_last, call, sources_of, sending; cbn [at_ returned]; auto; try lia.
  - apply inv_issend; assumption.
  - eapply inv_move; [exact I|exact E|..]; unfold entered_middle, entered_last, entered_first, call, sources_of, sending; cbn [at_ returned]; auto; try lia.
    + intros d. rewrite (sent_all p ret i Ed). reflexivity.
  - apply (inv_receive c p ret ss done s w1 w2); assumption.
  - eapply inv_move; [exact I|exact E|..]; unfold entered_first, entered_middle, entered_last, sent, call, sources_of; cbn [at_ returned]; auto; try lia.
  - eapply inv_move; [exact I|exact E|..]; unfold entered_first, sent, call, sources_of; cbn [at_ returned]; auto; try lia.
    { unfold entered_last, call. cbn [at_ returned]. lia. }
    right. intros q r Eq. specialize (HB q r Eq). unfold entered_last, call. cbn [at_ returned]. lia.
  - apply inv_return; assumption.
Qed.

Lemma inv_steps c c' : steps dests c c' -> inv c -> inv c'.
Proof. induction 1 as [|c d e _ IH Hs]; intros I; [exact I|]. exact (inv_step d e (IH I) Hs). Qed.

Lemma returned_senders c p r k l : inv c -> nth_error (ranks c) p = Some r -> nth_error (returned r) k = Some l ->
  lists_senders (dests k) n p l.
Proof.
  intros I E El. split; [exact (i_sorted c I p r l E (nth_error_In _ _ El))|]. intros s.
  assert (Hk : k < call r) by (apply nth_error_Some; congruence).
  assert (Hrecv : recv r k = l) by (unfold recv; rewrite El; reflexivity).
  destruct (Nat.ltb_spec s n) as [Hs|Hs].
  - destruct (nth_error (ranks c) s) as [rs|] eqn:Es; [|apply nth_error_None in Es; rewrite (i_len c I) in Es; lia].
    pose proof (i_count c I k s p rs r Es E) as C. rewrite Hrecv in C.
    pose proof (i_middle c I p s r rs E Es) as M.
    assert (ML : call r <= entered_last r) by apply Nat.le_add_r.
    assert (HM : k < entered_middle rs) by lia.
    assert (Hsnt : sent s rs k = dests k s).
    { unfold sent. destruct (Nat.ltb_spec k (call rs)) as [|H]; [reflexivity|].
      unfold entered_middle in HM. destruct rs as [[| | |? []|] ret]; cbn [at_] in *; try lia;
      (replace (k =? call _) with true by (symmetry; apply Nat.eqb_eq; lia)); reflexivity. }
    rewrite <- Hsnt, <- C. destruct (Nat.eqb_spec k (call rs)) as [->|Hn]; [|lia].
    assert (cnt2 (wire c) (s, p) = 0); [|lia]. apply count_occ_not_In. intros Hw.
    destruct (i_wire c I s p Hw) as (_ & rs' & Es' & Hsend). assert (rs' = rs) by congruence. subst rs'.
    unfold entered_middle, sending in *. destruct rs as [[| | |? []|] ret]; cbn [at_] in *; try contradiction; lia.
  - apply count_occ_not_In. intros Hin. rewrite <- Hrecv in Hin. pose proof (i_alien c I k p r s E Hin). lia.
Qed.
End P.
