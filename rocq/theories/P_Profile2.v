From Verif Require Import Prelude M_Profile S_Profile P_Profile.
Local Open Scope nat_scope.

Section Walk.
Variable h : history.
Hypothesis I : inv h.
Let n := length (frames h).

Lemma child_gt p c : In c (children (frames h) (Some p)) -> p < c < n.
Proof. intros H. apply in_children in H as (f & Ef & Pf). split; [eapply i_par; eauto|]. apply lt_nth in Ef. exact Ef. Qed.

(** The frames below [i], in pre-order. *)
Fixpoint sub (k i : nat) : list nat :=
  i :: match k with O => [] | S k => flat_map (sub k) (children (frames h) (Some i)) end.

Lemma climb_any : forall i f1 f2, i < n -> i < f1 -> i < f2 -> climb f1 h (Some i) = climb f2 h (Some i).
Proof.
  intros i. induction i as [i IH] using lt_wf_ind. intros f1 f2 Hi H1 H2. destruct f1 as [|f1]; [lia|]. destruct f2 as [|f2]; [lia|].
  cbn [climb]. unfold next, parent_of, vget. destruct (nth_lt _ _ Hi) as (f & Ef). rewrite Ef. cbn [bind].
  destruct (next_sibling f); [reflexivity|]. destruct (parent f) as [p|] eqn:EP; [|destruct f1, f2; reflexivity].
  pose proof (i_par h I i f p Ef EP). apply IH; lia.
Qed.
Lemma climb_step i f : nth_error (frames h) i = Some f ->
  climb n h (Some i) = match next_sibling f with Some j => Ok (Some j) | None => climb n h (parent f) end.
Proof.
  intros Ef. pose proof (lt_nth _ _ _ Ef) as Hi. fold n in Hi. rewrite (climb_any i n (S n)) by lia.
  cbn [climb]. unfold next, parent_of, vget. rewrite Ef. cbn [bind]. reflexivity.
Qed.
Lemma climb_ok : forall i, i < n -> exists e, climb n h (Some i) = Ok e.
Proof.
  intros i. induction i as [i IH] using lt_wf_ind. intros Hi. destruct (nth_lt _ _ Hi) as (f & Ef). rewrite (climb_step i f Ef).
  destruct (next_sibling f); [eauto|]. destruct (parent f) as [p|] eqn:EP; [|exists None; destruct n; reflexivity].
  pose proof (i_par h I i f p Ef EP). apply IH; lia.
Qed.

Inductive vis : option nat -> list nat -> option nat -> Prop :=
| v_nil s : vis s [] s
| v_cons i m L e : pre_order_next h i = Ok m -> vis m L e -> vis (Some i) (i :: L) e.
Lemma vis_app s L m M e : vis s L m -> vis m M e -> vis s (L ++ M) e.
Proof. intros H. induction H; intros H2; [exact H2|]. cbn. econstructor; eauto. Qed.

Lemma forest_vis k p e : climb n h p = Ok e -> forall l s, l <> [] -> seg (frames h) s l ->
  (forall x, In x l -> exists f, nth_error (frames h) x = Some f /\ parent f = p) ->
  (forall x e', In x l -> climb n h (Some x) = Ok e' -> vis (Some x) (sub k x) e') ->
  vis s (flat_map (sub k) l) e.
Proof.
  intros He. induction l as [|x t IH]; intros s Hne S HC HV; [congruence|].
  destruct S as (-> & f & Ef & S). cbn [flat_map]. pose proof (climb_step x f Ef) as CS.
  destruct t as [|y t].
  - cbn in S. rewrite S in CS. destruct (HC x (or_introl eq_refl)) as (f' & Ef' & Pf). rewrite Ef in Ef'. injection Ef' as <-.
    cbn [flat_map]. rewrite app_nil_r. apply HV; [left; reflexivity|]. rewrite CS, Pf. exact He.
  - pose proof S as (Sy & _). rewrite Sy in CS. apply vis_app with (Some y).
    + apply HV; [left; reflexivity|exact CS].
    + rewrite Sy in S. apply IH; [discriminate|exact S| |]; intros z; intros; [apply HC|apply HV]; auto; right; assumption.
Qed.

Lemma sub_vis : forall k i e, n - i <= k -> i < n -> climb n h (Some i) = Ok e -> vis (Some i) (sub k i) e.
Proof.
  induction k as [|k IH]; intros i e Hk Hi He; [lia|]. destruct (nth_lt _ _ Hi) as (f & Ef). cbn [sub].
  pose proof (i_seg h I (Some i) Hi) as S. cbn [first_of] in S. rewrite Ef in S.
  destruct (children (frames h) (Some i)) as [|c t] eqn:EC.
  - cbn [flat_map]. apply v_cons with e; [|constructor]. unfold pre_order_next, first, next, vget. rewrite Ef. cbn [bind].
    cbn in S. rewrite S. cbn [bind]. fold n. pose proof (climb_step i f Ef) as CS. destruct (next_sibling f) as [j|]; [congruence|exact He].
  - apply v_cons with (Some c).
    + unfold pre_order_next, first, vget. rewrite Ef. cbn [bind]. destruct S as (-> & _). reflexivity.
    + destruct S as (Sf & S'). assert (S : seg (frames h) (Some c) (c :: t)) by (split; [reflexivity|exact S']).
      apply (forest_vis k (Some i) e He (c :: t)); [discriminate|exact S| |].
      * intros x Hx. rewrite <- EC in Hx. apply in_children in Hx. exact Hx.
      * intros x e' Hx Hc. rewrite <- EC in Hx. pose proof (child_gt _ _ Hx). apply IH; [lia|lia|exact Hc].
Qed.

(** Ancestors *)
Inductive anc (i : nat) : nat -> Prop :=
| anc_refl : anc i i
| anc_step j f p : nth_error (frames h) j = Some f -> parent f = Some p -> anc i p -> anc i j.
Lemma anc_le i j : anc i j -> i <= j.
Proof. intros H. induction H as [|j f p Ef Pf H IH]; [lia|]. pose proof (i_par h I j f p Ef Pf). lia. Qed.
Lemma anc_trans i j k : anc i j -> anc j k -> anc i k.
Proof. intros H1 H2. induction H2; [exact H1|]. econstructor; eauto. Qed.
Lemma anc_chain j : forall a, anc a j -> forall b, anc b j -> anc a b \/ anc b a.
Proof.
  intros a H. induction H as [|j f p Ef Pf H IH]; intros b Hb; [auto|].
  inversion Hb as [|j' f' p' Ef' Pf' Hb']; subst.
  - left. econstructor; eauto.
  - rewrite Ef in Ef'. injection Ef' as <-. rewrite Pf in Pf'. injection Pf' as <-. auto.
Qed.

Lemma sub_anc : forall k i j, In j (sub k i) -> anc i j.
Proof.
  induction k as [|k IH]; intros i j [<-|H]; try constructor; [destruct H|].
  apply in_flat_map in H as (c & Hc & H). apply IH in H. apply in_children in Hc as (f & Ef & Pf).
  eapply anc_trans; [|exact H]. econstructor; eauto. constructor.
Qed.
Lemma sub_closed : forall k i, n - i <= k -> forall p j f, In p (sub k i) -> nth_error (frames h) j = Some f -> parent f = Some p -> In j (sub k i).
Proof.
  induction k as [|k IH]; intros i Hk p j f Hp Ef Pf.
  - pose proof (sub_anc _ _ _ Hp) as A. apply anc_le in A. pose proof (i_par h I j f p Ef Pf). apply lt_nth in Ef. fold n in Ef. lia.
  - cbn [sub] in *. destruct Hp as [<-|Hp]; right.
    + apply in_flat_map. exists j. split; [apply in_children; eauto|]. destruct k; left; reflexivity.
    + apply in_flat_map in Hp as (c & Hc & Hp). apply in_flat_map. exists c. split; [exact Hc|]. pose proof (child_gt _ _ Hc).
      apply (IH c) with (p := p) (f := f); auto. lia.
Qed.
Lemma sub_has k i j : n - i <= k -> anc i j -> In j (sub k i).
Proof.
  intros Hk H. induction H as [|j f p Ef Pf H IH]; [destruct k; left; reflexivity|]. eapply sub_closed; eauto.
Qed.

Lemma siblings_apart p a b j : In a (children (frames h) p) -> In b (children (frames h) p) -> anc a j -> anc b j -> a = b.
Proof.
  intros Ha Hb A B. apply in_children in Ha as (fa & Ea & Pa). apply in_children in Hb as (fb & Eb & Pb).
  assert (G : forall x y fx fy, nth_error (frames h) x = Some fx -> nth_error (frames h) y = Some fy -> parent fx = parent fy -> anc x y -> x = y).
  { intros x y fx fy Ex Ey Exy H. inversion H as [|y' f' q Ey' Py Hq]; subst; [reflexivity|]. rewrite Ey in Ey'. injection Ey' as <-.
    rewrite Py in Exy. pose proof (i_par h I x fx q Ex Exy). apply anc_le in Hq. lia. }
  destruct (anc_chain j a A b B) as [H|H]; [eapply G; eauto; congruence|symmetry; eapply G; eauto; congruence].
Qed.

Lemma flat_NoDup (f : nat -> list nat) l : NoDup l -> (forall x, In x l -> NoDup (f x)) ->
  (forall x y j, In x l -> In y l -> In j (f x) -> In j (f y) -> x = y) -> NoDup (flat_map f l).
Proof.
  induction l as [|x t IH]; intros ND N1 N2; [constructor|]. inversion ND as [|? ? Hx Ht]; subst. cbn [flat_map].
  assert (Hd : forall j, In j (f x) -> ~ In j (flat_map f t)).
  { intros j Hj H. apply in_flat_map in H as (y & Hy & Hjy). assert (x = y) by (eapply N2; eauto; [left; reflexivity|right; exact Hy]). subst. contradiction. }
  assert (Ht' : NoDup (flat_map f t)) by (apply IH; [exact Ht|intros; apply N1; right; assumption|intros y z j Hy Hz; apply N2; right; assumption]).
  specialize (N1 x (or_introl eq_refl)). clear - N1 Ht' Hd. induction (f x) as [|a l IH]; [exact Ht'|]. inversion N1; subst. cbn. constructor.
  - intros H. apply in_app_or in H as [H|H]; [contradiction|]. exact (Hd a (or_introl eq_refl) H).
  - apply IH; [assumption|]. intros j Hj. apply Hd. right. exact Hj.
Qed.

Lemma sub_NoDup : forall k i, NoDup (sub k i).
Proof.
  induction k as [|k IH]; intros i; cbn [sub]; [repeat constructor; intros []|]. constructor.
  - intros H. apply in_flat_map in H as (c & Hc & H). pose proof (child_gt _ _ Hc). apply sub_anc, anc_le in H. lia.
  - apply flat_NoDup; [apply children_NoDup|auto|]. intros x y j Hx Hy Jx Jy. exact (siblings_apart _ x y j Hx Hy (sub_anc k x j Jx) (sub_anc k y j Jy)).
Qed.

Lemma rooted : forall j, j < n -> exists r, In r (children (frames h) None) /\ anc r j.
Proof.
  intros j. induction j as [j IH] using lt_wf_ind. intros Hj. destruct (nth_lt _ _ Hj) as (f & Ef). destruct (parent f) as [p|] eqn:EP.
  - pose proof (i_par h I j f p Ef EP). destruct (IH p) as (r & Hr & A); [lia|lia|]. exists r. split; [exact Hr|]. econstructor; eauto.
  - exists j. split; [apply in_children; eauto|constructor].
Qed.

Definition all_frames := flat_map (sub n) (children (frames h) None).
Lemma all_frames_perm : Permutation all_frames (seq 0 n).
Proof.
  apply NoDup_Permutation; [|apply seq_NoDup|].
  - apply flat_NoDup; [apply children_NoDup|intros; apply sub_NoDup|]. intros x y j Hx Hy Jx Jy. exact (siblings_apart _ x y j Hx Hy (sub_anc n x j Jx) (sub_anc n y j Jy)).
  - intros j. rewrite in_seq. unfold all_frames. rewrite in_flat_map. split.
    + intros (r & Hr & Hj). split; [lia|]. apply sub_anc in Hj. apply in_children in Hr as (f & Ef & _). apply lt_nth in Ef. fold n in Ef.
      inversion Hj as [|j' f' p Ef' _ _]; subst; [lia|]. apply lt_nth in Ef'. fold n in Ef'. lia.
    + intros [_ Hj]. destruct (rooted j Hj) as (r & Hr & A). exists r. split; [exact Hr|]. apply sub_has; [lia|exact A].
Qed.

Lemma vis_visit s L : vis s L None -> forall k, length L <= k -> visit k h s = Ok L.
Proof.
  intros H. remember None as e eqn:Ee. induction H as [s|i m L e Hp H IH]; intros k Hk; subst; [destruct k; reflexivity|].
  destruct k as [|k]; [cbn in Hk; lia|]. cbn [visit]. rewrite Hp. cbn [bind]. rewrite IH; [reflexivity|reflexivity|cbn in Hk; lia].
Qed.

Lemma walk_all : walk h = Ok all_frames.
Proof.
  unfold walk. fold n. apply vis_visit.
  - pose proof (i_seg h I None Logic.I) as S. cbn [first_of] in S. unfold all_frames.
    destruct (children (frames h) None) as [|c t] eqn:EC.
    + cbn in S. rewrite S. constructor.
    + rewrite <- EC in *. apply (forest_vis n None); [destruct n; reflexivity|rewrite EC; discriminate|exact S| |].
      * intros x Hx. apply in_children. exact Hx.
      * intros x e Hx He. apply in_children in Hx as (f & Ef & _). apply lt_nth in Ef. apply sub_vis; [lia|exact Ef|exact He].
  - rewrite (Permutation_length all_frames_perm), seq_length. lia.
Qed.

(** Parents come first. *)
Lemma sub_parent : forall k i a x b, sub k i = a ++ x :: b -> x = i \/ exists f p, nth_error (frames h) x = Some f /\ parent f = Some p /\ In p a.
Proof.
  assert (Flat : forall (g : nat -> list nat) l a x b, flat_map g l = a ++ x :: b -> exists c a' b', In c l /\ g c = a' ++ x :: b' /\ incl a' a).
  { intros g l. induction l as [|c t IH]; intros a x b E; cbn [flat_map] in E; [destruct a; discriminate|].
    assert (Sp : (exists b', g c = a ++ x :: b') \/ (exists a', a = g c ++ a' /\ flat_map g t = a' ++ x :: b)).
    { clear IH. revert a E. induction (g c) as [|y l IH]; intros a E; cbn [app] in E.
      - right. exists a. auto.
      - destruct a as [|z a]; cbn [app] in E; injection E as -> E.
        + left. exists l. reflexivity.
        + destruct (IH a E) as [(b' & ->)|(a' & -> & E2)]; [left; exists b'; reflexivity|right; exists a'; auto]. }
    destruct Sp as [(b' & Eb)|(a' & -> & E2)].
    - exists c, a, b'. split; [left; reflexivity|]. split; [exact Eb|]. intros z Hz. exact Hz.
    - destruct (IH a' x b E2) as (c' & a2 & b2 & Hc & Eg & Hi). exists c', a2, b2. split; [right; exact Hc|]. split; [exact Eg|].
      intros z Hz. apply in_or_app. right. apply Hi, Hz. }
  induction k as [|k IH]; intros i a x b E; cbn [sub] in E; destruct a as [|y a]; cbn [app] in E; injection E; intros; subst; auto.
  - destruct a; discriminate.
  - right. match goal with H : flat_map _ _ = _ |- _ => destruct (Flat _ _ _ _ _ H) as (c & a' & b' & Hc & Eg & Hi) end.
    destruct (IH c a' x b' Eg) as [->|(f & p & Ef & Pf & Hp)].
    + apply in_children in Hc as (f & Ef & Pf). exists f, y. split; [exact Ef|]. split; [exact Pf|]. left. reflexivity.
    + exists f, p. split; [exact Ef|]. split; [exact Pf|]. right. apply Hi, Hp.
Qed.
End Walk.

Lemma all_parent h : inv h -> forall a x b, all_frames h = a ++ x :: b ->
  exists f, nth_error (frames h) x = Some f /\ match parent f with None => True | Some p => In p a end.
Proof.
  intros I a x b E. unfold all_frames in E.
  assert (Flat : forall (g : nat -> list nat) l a x b, flat_map g l = a ++ x :: b -> exists c a' b', In c l /\ g c = a' ++ x :: b' /\ incl a' a).
  { clear. intros g l. induction l as [|c t IH]; intros a x b E; cbn [flat_map] in E; [destruct a; discriminate|].
    assert (Sp : (exists b', g c = a ++ x :: b') \/ (exists a', a = g c ++ a' /\ flat_map g t = a' ++ x :: b)).
    { clear IH. revert a E. induction (g c) as [|y l IH]; intros a E; cbn [app] in E.
      - right. exists a. auto.
      - destruct a as [|z a]; cbn [app] in E; injection E as -> E.
        + left. exists l. reflexivity.
        + destruct (IH a E) as [(b' & ->)|(a' & -> & E2)]; [left; exists b'; reflexivity|right; exists a'; auto]. }
    destruct Sp as [(b' & Eb)|(a' & -> & E2)].
    - exists c, a, b'. split; [left; reflexivity|]. split; [exact Eb|]. intros z Hz. exact Hz.
    - destruct (IH a' x b E2) as (c' & a2 & b2 & Hc & Eg & Hi). exists c', a2, b2. split; [right; exact Hc|]. split; [exact Eg|].
      intros z Hz. apply in_or_app. right. apply Hi, Hz. }
  destruct (Flat _ _ _ _ _ E) as (c & a' & b' & Hc & Eg & Hi). apply in_children in Hc as (f & Ef & Pf).
  destruct (sub_parent h _ _ _ _ _ Eg) as [->|(g & p & Eg' & Pg & Hp)].
  - exists f. rewrite Pf. auto.
  - exists g. rewrite Pg. auto.
Qed.

Lemma depths_spec h : inv h -> exists ds, compute_depths h = Ok ds /\ length ds = length (frames h) /\
  forall i d p, nth_error ds i = Some d -> frame_path h (Some i) p -> length p = S d.
Proof.
  intros I. unfold compute_depths. rewrite (walk_all h I). cbn [bind]. set (n := length (frames h)).
  match goal with |- context [foldM ?F _ _] => set (step := F) end.
  assert (G : forall b a ds, all_frames h = a ++ b -> length ds = n ->
    (forall i d p, In i a -> nth_error ds i = Some d -> frame_path h (Some i) p -> length p = S d) ->
    exists ds', foldM step b ds = Ok ds' /\ length ds' = n /\
    (forall i d p, In i (a ++ b) -> nth_error ds' i = Some d -> frame_path h (Some i) p -> length p = S d)).
  { induction b as [|x b IH]; intros a ds E L H; cbn [foldM].
    - exists ds. rewrite app_nil_r. auto.
    - destruct (all_parent h I a x b E) as (f & Ef & Hf).
      assert (Step : exists d, step ds x = Ok (list_set ds x d) /\ forall p, frame_path h (Some x) p -> length p = S d).
      { unfold step, parent_of. unfold vget at 1. rewrite Ef. cbn [bind]. pose proof (lt_nth _ _ _ Ef) as Hx. fold n in Hx.
        destruct (parent f) as [p|] eqn:EP.
        - pose proof (i_par h I x f p Ef EP). destruct (nth_lt ds p) as (d & Ed); [lia|]. unfold vget. rewrite Ed. cbn [bind].
          rewrite vset_lt by lia. exists (S d). split; [reflexivity|]. intros q Hq. inversion Hq as [|? g nm q' Eg _ Hq']; subst.
          rewrite Ef in Eg. injection Eg as <-. rewrite EP in Hq'. cbn [length]. f_equal. eapply H; eauto.
        - cbn [bind]. rewrite vset_lt by lia. exists 0. split; [reflexivity|]. intros q Hq. inversion Hq as [|? g nm q' Eg _ Hq']; subst.
          rewrite Ef in Eg. injection Eg as <-. rewrite EP in Hq'. inversion Hq'. reflexivity. }
      destruct Step as (d & -> & Hd). cbn [bind].
      destruct (IH (a ++ [x]) (list_set ds x d)) as (ds' & E' & L' & H').
      + rewrite <- app_assoc. exact E.
      + rewrite list_set_length. exact L.
      + intros i e p Hi Ee HP. destruct (Nat.eq_dec i x) as [->|Hne].
        * rewrite list_set_nth_eq in Ee by (apply lt_nth in Ef; fold n in Ef; lia). injection Ee as <-. auto.
        * rewrite list_set_nth_ne in Ee by auto. apply in_app_or in Hi as [Hi|[Hi|[]]]; [eauto|congruence].
      + exists ds'. rewrite <- app_assoc in H'. auto. }
  destruct (G (all_frames h) [] (repeat 0 n)) as (ds & E & L & H); [reflexivity|apply repeat_length|intros i d p []|].
  exists ds. split; [exact E|]. split; [exact L|]. intros i d p Ei HP. apply (H i d p); auto.
  cbn [app]. apply (Permutation_in _ (Permutation_sym (all_frames_perm h I))). apply in_seq. apply lt_nth in Ei. fold n. lia.
Qed.

(** * Inversion *)
Record holds (g : history) (tot : path -> Z) (cnt : path -> nat) (dom : list path) : Prop := {
  h_inv : inv g;
  h_says : forall i q p s st t c, frame_path g (Some i) q -> says g i p s st t c -> t = tot q /\ c = cnt q /\ In q dom;
  h_has : forall q, In q dom -> exists i, frame_path g (Some i) q;
  h_zero : forall q, ~ In q dom -> tot q = 0%Z /\ cnt q = 0 }.

Lemma bump g tot cnt dom p q0 name x m : holds g tot cnt dom -> frame_path g p q0 -> ~ In 0%Z name ->
  exists g1 i f, find_or_create_child_of g p name = Ok (g1, i) /\ nth_error (frames g1) i = Some f /\ i < length (frames g1) /\
  let g2 := History (list_set (frames g1) i (set_counts f (start_time f) (total_runtime f + x)%Z (number_of_calls f + m))) (current_frame g1) (last_root g1) (names g1) in
  holds g2 (fun q => tot q + if path_dec (name :: q0) q then x else 0)%Z (fun q => cnt q + if path_dec (name :: q0) q then m else 0) (dom ++ [name :: q0]) /\
  frame_path g2 (Some i) (name :: q0).
Proof.
  intros [I HS HH HZ] TC Hz.
  destruct (find_or_create_spec g p name I (path_valid _ _ _ TC) Hz) as (g1 & i & E & I1 & C1 & Hi & Keep & Case).
  exists g1, i. destruct (says_ex g1 i I1 Hi) as (p1 & n1 & st1 & tot1 & c1 & S1). pose proof (says_get _ _ _ _ _ _ _ S1) as (f & Ef & _ & Est & Etot & Ec).
  exists f. split; [exact E|]. split; [exact Ef|]. split; [exact Hi|]. cbv zeta.
  destruct (says_set g1 i f (start_time f) (total_runtime f + x)%Z (number_of_calls f + m) (current_frame g1) Ef) as (I2 & L2 & Says2).
  set (g2 := History _ _ _ _) in *. set (qq := name :: q0) in *.
  assert (P01 : forall j q, frame_path g j q -> frame_path g1 j q) by (apply path_ext; intros j q nm st tt cc X; eauto 10).
  assert (P12 : forall j q, frame_path g1 j q -> frame_path g2 j q).
  { apply path_ext. intros j q nm st tt cc X. destruct (Nat.eq_dec j i) as [->|Hn].
    - eexists _, _, _. apply Says2. left. eauto 10.
    - eexists _, _, _. apply Says2. right. eauto. }
  assert (P21 : forall j q, frame_path g2 j q -> frame_path g1 j q).
  { apply path_ext. intros j q nm st tt cc X. apply Says2 in X as [(-> & X & _)|(_ & X)]; eauto. }
  assert (Par1 : p1 = p /\ n1 = name).
  { destruct Case as [(-> & st & tt & cc & X)|(-> & _ & X & _)]; destruct (says_det _ _ _ _ _ _ _ _ _ _ _ _ S1 X) as (-> & -> & _); auto. }
  destruct Par1 as [-> ->].
  assert (PI : frame_path g1 (Some i) qq) by (eapply path_says; [exact S1|apply P01, TC]).
  assert (HJ : forall j, j < length (frames g1) -> j <> i -> j < length (frames g)) by (intros j Hj Hne; destruct Case as [(-> & _)|(-> & L & _)]; lia).
  split; [|apply P12, PI]. constructor.
  - apply I2, I1.
  - intros j q pp s st t c HP X. apply P21 in HP. apply Says2 in X as [(-> & _ & -> & -> & ->)|(Hj & X)].
    + assert (q = qq) by (eapply path_det; eauto). subst q. destruct (path_dec qq qq); [|congruence]. rewrite Etot, Ec.
      assert (tot1 = tot qq /\ c1 = cnt qq) as [-> ->].
      { destruct Case as [(-> & _)|(-> & _ & X & Fresh)].
        - destruct (HS i qq _ _ _ _ _ PI S1) as (A & B & _). auto.
        - destruct (says_det _ _ _ _ _ _ _ _ _ _ _ _ S1 X) as (_ & _ & _ & -> & ->).
          assert (Hno : ~ In qq dom).
          { intros Hin. destruct (HH qq Hin) as (j & Hj). inversion Hj as [|j' gf nm pth Eg Eng HPg Ej Eq]; subst.
            apply (Fresh j gf Eg); [|congruence]. eapply path_inj; [exact I|exact HPg|exact TC]. }
          destruct (HZ qq Hno) as [-> ->]. auto. }
      split; [reflexivity|]. split; [reflexivity|]. apply in_or_app. right. left. reflexivity.
    + assert (HJj : j < length (frames g)) by (apply HJ; [exact (path_valid _ _ _ HP)|exact Hj]).
      destruct (path_total g I j HJj) as (q' & HP'). rewrite (path_det _ _ _ HP _ (P01 _ _ HP')) in *.
      destruct (says_ex g j I HJj) as (p' & n' & st' & tot' & c' & X').
      destruct (says_det _ _ _ _ _ _ _ _ _ _ _ _ X (Keep _ _ _ _ _ _ X')) as (-> & -> & -> & -> & ->).
      destruct (HS j q' _ _ _ _ _ HP' X') as (-> & -> & Hin).
      assert (qq <> q') by (intros Eq; apply Hj; assert (Some j = Some i) by (eapply path_inj; [exact I1|apply P01, HP'|rewrite <- Eq; exact PI]); congruence).
      destruct (path_dec qq q'); [congruence|]. split; [lia|]. split; [lia|]. apply in_or_app. left. exact Hin.
  - intros q Hq. apply in_app_or in Hq as [Hq|[<-|[]]].
    + destruct (HH q Hq) as (j & Hj). exists j. apply P12, P01, Hj.
    + exists i. apply P12, PI.
  - intros q Hq. rewrite in_app_iff in Hq. destruct (HZ q) as [-> ->]; [tauto|]. destruct (path_dec qq q) as [->|]; [|auto].
    exfalso. apply Hq. right. left. reflexivity.
Qed.

Fixpoint grow (q0 r : path) : list path := match r with [] => [] | a :: r => (a :: q0) :: grow (a :: q0) r end.

Lemma cstr_nozero l s : cstr l = Ok s -> ~ In 0%Z s.
Proof.
  revert s. induction l as [|c t IH]; intros s E; [discriminate|]. cbn in E. destruct (Z.eqb_spec c 0); [injection E as <-; intros []|].
  destruct (cstr t) as [r| |]; try discriminate. cbn in E. injection E as <-. intros [H|H]; [congruence|]. exact (IH r eq_refl H).
Qed.
Lemma name_nozero h i s : get_name h i = Ok s -> ~ In 0%Z s.
Proof. unfold get_name, get. destruct (vget (frames h) i); try discriminate. cbn [bind]. apply cstr_nozero. Qed.

Lemma holds_ext g t1 t2 c1 c2 d : (forall q, t1 q = t2 q) -> (forall q, c1 q = c2 q) -> holds g t1 c1 d -> holds g t2 c2 d.
Proof.
  intros E1 E2 [I HS HH HZ]. constructor; auto.
  - intros i q p s st t c HP X. rewrite <- E1, <- E2. eapply HS; eauto.
  - intros q Hq. rewrite <- E1, <- E2. auto.
Qed.

Lemma climb_inverts h x m : forall fuel node r, frame_path h node r -> length r <= fuel -> forall g tot cnt dom p q0,
  holds g tot cnt dom -> frame_path g p q0 ->
  exists g', invert_climb fuel h g p node x m = Ok g' /\
  holds g' (fun q => tot q + x * Z.of_nat (count_occ path_dec (grow q0 r) q))%Z (fun q => cnt q + m * count_occ path_dec (grow q0 r) q) (dom ++ grow q0 r).
Proof.
  induction fuel as [|fuel IH]; intros node r HP Hf g tot cnt dom p q0 HH TC; inversion HP as [|i f name r' Ef En HP']; subst; try (cbn in Hf; lia).
  1,2: exists g; split; [reflexivity|]; cbn [grow]; rewrite app_nil_r; eapply holds_ext; [| |exact HH]; intros q; cbn; lia.
  cbn [invert_climb]. rewrite En. cbn [bind].
  destruct (bump g tot cnt dom p q0 name x m HH TC (name_nozero _ _ _ En)) as (g1 & j & fj & -> & Efj & Hj & HH2 & TC2). cbn [bind].
  unfold vget. rewrite Efj. cbn [bind]. rewrite vset_lt by exact Hj. cbn [bind]. unfold parent_of, vget. rewrite Ef. cbn [bind].
  destruct (IH (parent f) r' HP' ltac:(cbn in Hf; lia) _ _ _ _ _ _ HH2 TC2) as (g' & -> & HH'). exists g'. split; [reflexivity|].
  cbn [grow]. replace (dom ++ (name :: q0) :: grow (name :: q0) r') with ((dom ++ [name :: q0]) ++ grow (name :: q0) r') by (rewrite <- app_assoc; reflexivity).
  eapply holds_ext; [| |exact HH']; intros q; cbn beta; cbn [count_occ]; destruct (path_dec (name :: q0) q); lia.
Qed.

(** A sibling chain read back. *)
Lemma chain_seg h l : forall i k, seg (frames h) i l -> length l <= k -> chain k h i = Ok l.
Proof.
  induction l as [|x t IH]; intros i k S Hk; [cbn in S; subst; destruct k; reflexivity|]. destruct S as (-> & f & Ef & S).
  destruct k as [|k]; [cbn in Hk; lia|]. cbn [chain]. unfold next, vget. rewrite Ef. cbn [bind]. rewrite (IH _ k S); [reflexivity|cbn in Hk; lia].
Qed.
Lemma children_of_spec h p : inv h -> valid h p -> children_of h p = Ok (children (frames h) p).
Proof.
  intros I Hp. unfold children_of. pose proof (i_seg h I p Hp) as S.
  assert (first h p = Ok (first_of h p)) as ->.
  { destruct p as [p|]; cbn [first first_of]; [|destruct (frames h); reflexivity]. cbn in Hp. destruct (nth_lt _ _ Hp) as (f & Ef). unfold vget. rewrite Ef. reflexivity. }
  cbn [bind]. apply chain_seg; [exact S|apply children_length].
Qed.
