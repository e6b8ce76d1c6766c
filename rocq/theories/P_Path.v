From Verif Require Import Prelude M_Path.
Local Open Scope Z_scope.

Lemma find_last_none c s : find_last_of c s = None <-> ~ In c s.
Proof.
  induction s as [|x t IH]; [cbn; tauto|]. cbn [find_last_of In]. destruct (find_last_of c t) as [i|].
  - split; [discriminate|]. intros H. exfalso. apply H. right. apply Decidable.not_not; [|intros Hn; apply IH in Hn; discriminate].
    unfold Decidable.decidable. destruct (in_dec Z.eq_dec c t); auto.
  - destruct (Z.eqb_spec x c) as [->|Hn]; [split; [discriminate|]; intros H; exfalso; apply H; auto|].
    split; [|reflexivity]. intros _ [H|H]; [congruence|]. apply IH in H; auto.
Qed.

Lemma find_last_some : forall c s i, find_last_of c s = Some i ->
  exists a b, s = a ++ c :: b /\ length a = i /\ ~ In c b.
Proof.
  intros c s. induction s as [|x t IH]; intros i E; [discriminate|]. cbn [find_last_of] in E.
  destruct (find_last_of c t) as [j|] eqn:Et.
  - assert (i = S j) by congruence. subst. destruct (IH j eq_refl) as (a & b & -> & La & Hb). exists (x :: a), b. cbn. auto.
  - destruct (Z.eqb_spec x c) as [->|Hn]; [|discriminate]. assert (i = O) by congruence. subst. exists [], t. cbn.
    split; [reflexivity|]. split; [reflexivity|]. apply find_last_none, Et.
Qed.

Lemma find_last_app c a b : ~ In c b -> find_last_of c (a ++ c :: b) = Some (length a).
Proof.
  intros Hb. induction a as [|x t IH]; cbn [app find_last_of].
  - apply find_last_none in Hb. rewrite Hb, Z.eqb_refl. reflexivity.
  - rewrite IH. reflexivity.
Qed.

Lemma firstn_mid {A} (a b : list A) x : firstn (length a) (a ++ x :: b) = a.
Proof. induction a as [|y t IH]; [reflexivity|]. cbn. f_equal. exact IH. Qed.
Lemma skipn_mid {A} (a b : list A) x : skipn (length a + 1) (a ++ x :: b) = b.
Proof. induction a as [|y t IH]; [reflexivity|]. exact IH. Qed.
Lemma skipn_mid0 {A} (a b : list A) x : skipn (length a) (a ++ x :: b) = x :: b.
Proof. induction a as [|y t IH]; [reflexivity|]. exact IH. Qed.

Lemma split_path (p : list Z) : (~ In sep p /\ filename p = p /\ parent_path p = p) \/
  (exists d f, p = d ++ sep :: f /\ ~ In sep f /\ filename p = f /\ parent_path p = d).
Proof.
  unfold filename, parent_path. destruct (find_last_of sep p) as [i|] eqn:E.
  - right. destruct (find_last_some _ _ _ E) as (d & f & -> & <- & Hf). exists d, f.
    split; [reflexivity|]. split; [exact Hf|]. split; [apply skipn_mid|apply firstn_mid].
  - left. split; [apply find_last_none, E|auto].
Qed.

Lemma filename_spec p : ~ In sep (filename p) /\ (p = filename p \/ exists d, p = d ++ sep :: filename p).
Proof.
  destruct (split_path p) as [(H & -> & _)|(d & f & -> & Hf & -> & _)]; [auto|]. split; [exact Hf|]. right. exists d. reflexivity.
Qed.

Lemma parent_join p : In sep p -> join (parent_path p) (filename p) = p.
Proof. intros H. destruct (split_path p) as [(Hn & _)|(d & f & -> & Hf & -> & ->)]; [contradiction|reflexivity]. Qed.

Lemma parent_of_name p : ~ In sep p -> parent_path p = p.
Proof. intros H. destruct (split_path p) as [(_ & _ & E)|(d & f & -> & _)]; [exact E|]. destruct H. apply in_or_app. right. left. reflexivity. Qed.

Lemma join_filename a b : filename (join a b) = filename b.
Proof.
  destruct (split_path b) as [(Hn & E & _)|(d & f & -> & Hf & E & _)]; rewrite E; unfold filename, join.
  - cbn [app]. rewrite find_last_app by exact Hn. apply skipn_mid.
  - replace (a ++ [sep] ++ d ++ sep :: f) with ((a ++ sep :: d) ++ sep :: f) by (rewrite <- app_assoc; reflexivity).
    rewrite find_last_app by exact Hf. apply skipn_mid.
Qed.

Lemma join_parent a b : ~ In sep b -> parent_path (join a b) = a.
Proof. intros H. unfold parent_path, join. cbn [app]. rewrite find_last_app by exact H. apply firstn_mid. Qed.

Lemma str_eqb_spec : forall a b, str_eqb a b = true <-> a = b.
Proof.
  induction a as [|x a IH]; intros [|y b]; cbn; try (split; [discriminate|congruence]); [tauto|].
  rewrite andb_true_iff, IH. destruct (Z.eqb_spec x y); split; intuition congruence.
Qed.

Lemma stem_extension p : stem p ++ extension p = filename p.
Proof.
  unfold stem, extension. destruct (find_last_of dot (filename p)) as [i|]; [|apply app_nil_r].
  destruct (_ || _); [apply app_nil_r|]. destruct (i =? 0)%nat; [apply app_nil_r|]. apply firstn_skipn.
Qed.

Lemma extension_spec p : (extension p = [] /\ stem p = filename p /\
    (filename p = [dot] \/ filename p = [dot; dot] \/ ~ In dot (tl (filename p)))) \/
  (exists e, extension p = dot :: e /\ ~ In dot e /\ stem p <> [] /\ filename p <> [dot; dot]).
Proof.
  unfold stem, extension. set (f := filename p). destruct (find_last_of dot f) as [i|] eqn:E.
  - destruct (str_eqb f [dot]) eqn:E1; [left; apply str_eqb_spec in E1; auto|].
    destruct (str_eqb f [dot; dot]) eqn:E2; [left; apply str_eqb_spec in E2; auto|]. cbn [orb].
    assert (N1 : f <> [dot]) by (intros H; apply str_eqb_spec in H; congruence).
    assert (N2 : f <> [dot; dot]) by (intros H; apply str_eqb_spec in H; congruence).
    destruct (find_last_some _ _ _ E) as (a & b & Ef & La & Hb). rewrite Ef in *. destruct (Nat.eqb_spec i 0) as [H0|H0].
    + left. subst i. destruct a; [|discriminate]. cbn [app tl]. auto.
    + right. exists b. subst i. rewrite skipn_mid0, firstn_mid. repeat split; auto. intros ->. apply H0. reflexivity.
  - left. apply find_last_none in E. split; [reflexivity|]. split; [reflexivity|]. right. right. intros H. apply E. destruct f; [destruct H|right; exact H].
Qed.

Lemma join_empty b : join [] b = sep :: b.
Proof. reflexivity. Qed.
Lemma parent_not_proper : exists p, ~ In sep p /\ parent_path p = p /\ p <> [].
Proof. exists [97]. split; [intros [H|[]]; discriminate|]. split; [reflexivity|discriminate]. Qed.
