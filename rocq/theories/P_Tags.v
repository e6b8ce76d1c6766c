(** Proofs about tags. *)
From Coq Require Import String.
From Verif Require Import Prelude M_Tags S_Tags.
Local Open Scope Z_scope.

Lemma same_name_spec a b : same_name a b = true <-> a = b.
Proof. unfold same_name. destruct (list_eq_dec Z.eq_dec a b); split; congruence. Qed.
Lemma same_name_refl a : same_name a a = true.
Proof. apply same_name_spec. reflexivity. Qed.
Lemma same_name_false a b : same_name a b = false <-> a <> b.
Proof. unfold same_name. destruct (list_eq_dec Z.eq_dec a b); split; congruence. Qed.
Lemma same_name_sym a b : same_name a b = same_name b a.
Proof. apply Bool.eq_true_iff_eq. rewrite !same_name_spec. split; congruence. Qed.

Definition names (l : list tag) : list (list Z) := map tag_name l.
Definition put (l : list tag) (t : tag) : list tag :=
  match find_tag l (tag_name t) with Some _ => replace_tag l (tag_name t) t | None => l ++ [t] end.

Lemma find_none l n : find_tag l n = None <-> ~ In n (names l).
Proof.
  induction l as [|t l IH]; cbn; [tauto|]. destruct (same_name (tag_name t) n) eqn:E.
  - apply same_name_spec in E. split; [discriminate|tauto].
  - apply same_name_false in E. rewrite IH. tauto.
Qed.
Lemma find_name l n t : find_tag l n = Some t -> tag_name t = n /\ In t l.
Proof.
  induction l as [|x l IH]; cbn; [discriminate|]. destruct (same_name (tag_name x) n) eqn:E.
  - intros H. inversion H; subst. apply same_name_spec in E. auto.
  - intros H. destruct (IH H). auto.
Qed.
Lemma find_replace l t n : find_tag l (tag_name t) <> None ->
  find_tag (replace_tag l (tag_name t) t) n = if same_name (tag_name t) n then Some t else find_tag l n.
Proof.
  induction l as [|x l IH]; cbn; [congruence|]. destruct (same_name (tag_name x) (tag_name t)) eqn:E; intros H; cbn.
  - apply same_name_spec in E. rewrite E. destruct (same_name (tag_name t) n); reflexivity.
  - apply same_name_false in E. rewrite (IH H). destruct (same_name (tag_name x) n) eqn:E1; [|reflexivity].
    apply same_name_spec in E1. destruct (same_name (tag_name t) n) eqn:E2; [|reflexivity]. apply same_name_spec in E2. congruence.
Qed.
Lemma find_snoc l t n : find_tag (l ++ [t]) n = match find_tag l n with Some x => Some x | None => if same_name (tag_name t) n then Some t else None end.
Proof. induction l as [|x l IH]; cbn; [reflexivity|]. destruct (same_name (tag_name x) n); auto. Qed.
Lemma find_put l t n : find_tag (put l t) n = if same_name (tag_name t) n then Some t else find_tag l n.
Proof.
  unfold put. destruct (find_tag l (tag_name t)) as [x|] eqn:E.
  - apply find_replace. congruence.
  - rewrite find_snoc. destruct (same_name (tag_name t) n) eqn:E1.
    + apply same_name_spec in E1. rewrite <- E1, E. reflexivity.
    + destruct (find_tag l n); reflexivity.
Qed.
Lemma names_replace l t : names (replace_tag l (tag_name t) t) = names l.
Proof.
  induction l as [|x l IH]; cbn; [reflexivity|]. destruct (same_name (tag_name x) (tag_name t)) eqn:E; cbn; [apply same_name_spec in E; unfold names; congruence|unfold names in *; congruence].
Qed.
Lemma names_put l t : names (put l t) = if existsb (same_name (tag_name t)) (names l) then names l else names l ++ [tag_name t].
Proof.
  unfold put. destruct (find_tag l (tag_name t)) as [x|] eqn:E.
  - rewrite names_replace. apply find_name in E as [E1 E2]. assert (X : existsb (same_name (tag_name t)) (names l) = true).
    { apply existsb_exists. exists (tag_name x). split; [apply in_map; exact E2|]. rewrite E1. apply same_name_refl. } rewrite X. reflexivity.
  - apply find_none in E. assert (X : existsb (same_name (tag_name t)) (names l) = false).
    { apply Bool.not_true_iff_false. intros X. apply existsb_exists in X as (y & Y1 & Y2). apply same_name_spec in Y2. congruence. } rewrite X.
    unfold names. rewrite map_app. reflexivity.
Qed.
Lemma put_nodup l t : NoDup (names l) -> NoDup (names (put l t)).
Proof.
  intros H. rewrite names_put. destruct (existsb _ _) eqn:E; [exact H|]. apply NoDup_rev in H. rewrite <- (rev_involutive (names l ++ [tag_name t])). apply NoDup_rev.
  rewrite rev_app_distr. cbn. constructor; [|exact H]. rewrite <- in_rev. intros I. apply Bool.not_true_iff_false in E. apply E. apply existsb_exists. exists (tag_name t). split; [exact I|apply same_name_refl].
Qed.
Lemma erase_filter l n : NoDup (names l) -> erase_tag l n = filter (fun t => negb (same_name (tag_name t) n)) l.
Proof.
  induction l as [|x l IH]; cbn; intros H; [reflexivity|]. inversion H as [|? ? H1 H2]; subst. destruct (same_name (tag_name x) n) eqn:E; cbn.
  - apply same_name_spec in E. subst n. symmetry. clear IH H H2. induction l as [|y l IH]; cbn; [reflexivity|].
    destruct (same_name (tag_name y) (tag_name x)) eqn:E; cbn.
    + apply same_name_spec in E. exfalso. apply H1. left. exact E.
    + f_equal. apply IH. intros I. apply H1. right. exact I.
  - f_equal. apply IH. exact H2.
Qed.
Lemma find_filter (keep : list Z -> bool) l n : find_tag (filter (fun t => keep (tag_name t)) l) n = if keep n then find_tag l n else None.
Proof.
  induction l as [|x l IH]; cbn; [destruct (keep n); reflexivity|]. destruct (keep (tag_name x)) eqn:K; cbn; destruct (same_name (tag_name x) n) eqn:E.
  - apply same_name_spec in E. subst n. rewrite K. reflexivity.
  - exact IH.
  - apply same_name_spec in E. subst n. rewrite K in *. exact IH.
  - exact IH.
Qed.
Lemma names_filter (keep : list Z -> bool) l : names (filter (fun t => keep (tag_name t)) l) = filter keep (names l).
Proof. induction l as [|x l IH]; cbn; [reflexivity|]. destruct (keep (tag_name x)); cbn; unfold names in *; rewrite IH; reflexivity. Qed.
Lemma filter_nodup {A} (p : A -> bool) l : NoDup l -> NoDup (filter p l).
Proof. apply NoDup_filter. Qed.
Lemma filter_all {A} (p : A -> bool) l : (forall x, In x l -> p x = true) -> filter p l = l.
Proof. induction l as [|x l IH]; cbn; intros H; [reflexivity|]. rewrite (H x (or_introl eq_refl)). f_equal. apply IH. auto. Qed.
Lemma filter_filter {A} (p q : A -> bool) l : filter p (filter q l) = filter (fun x => q x && p x) l.
Proof. induction l as [|x l IH]; cbn; [reflexivity|]. destruct (q x); cbn; [destruct (p x); cbn; rewrite IH; reflexivity|exact IH]. Qed.

Definition tags_at (m : tmesh) (d : Z) : list tag := match zget (t_tags m) d with Ok l => l | _ => [] end.
Definition nents_at (m : tmesh) (d : Z) : Z := match zget (t_nents m) d with Ok n => n | _ => -1 end.
Definition valid (m : tmesh) : Prop :=
  1 <= t_dim m <= 3 /\ zlen (t_nents m) = 4 /\ zlen (t_tags m) = 4 /\
  forall d, NoDup (names (tags_at m d)) /\ (tags_at m d <> [] -> 0 <= d <= t_dim m /\ 0 <= nents_at m d).
Definition alike (m m' : tmesh) : Prop := t_dim m' = t_dim m /\ t_nents m' = t_nents m.

Lemma mdim_ok m : valid m -> mdim m = Ok (t_dim m).
Proof. intros (V & _). unfold mdim. replace ((0 <=? t_dim m) && (t_dim m <=? 3)) with true by (symmetry; apply andb_true_iff; rewrite !Z.leb_le; lia). reflexivity. Qed.
Lemma check_dim_ok m d : valid m -> 0 <= d <= t_dim m -> check_dim m d = Ok tt.
Proof. intros V B. unfold check_dim. rewrite (mdim_ok m V). cbn [bind]. replace (0 <=? d) with true by (symmetry; apply Z.leb_le; lia). replace (d <=? t_dim m) with true by (symmetry; apply Z.leb_le; lia). reflexivity. Qed.
Lemma check_dim_inv m d : check_dim m d = Ok tt -> 0 <= d <= t_dim m.
Proof. unfold check_dim, mdim. destruct (Z.leb_spec 0 d); cbn [negb]; [|discriminate]. destruct ((0 <=? t_dim m) && (t_dim m <=? 3)); cbn [bind]; [|discriminate]. destruct (Z.leb_spec d (t_dim m)); [lia|discriminate]. Qed.
Lemma nents_at_ok m d : valid m -> 0 <= d <= t_dim m -> zget (t_nents m) d = Ok (nents_at m d).
Proof. intros (V & L & _) B. unfold nents_at. destruct (zget_in_range (t_nents m) d) as [n ->]; [lia|]. reflexivity. Qed.
Lemma tags_at_ok m d : valid m -> 0 <= d <= t_dim m -> zget (t_tags m) d = Ok (tags_at m d).
Proof. intros (V & _ & L & _) B. unfold tags_at. destruct (zget_in_range (t_tags m) d) as [n ->]; [lia|]. reflexivity. Qed.
Lemma has_ents_ok m d : valid m -> 0 <= d <= t_dim m -> has_ents m d = Ok (0 <=? nents_at m d).
Proof. intros V B. unfold has_ents. rewrite (check_dim_ok m d V B), (nents_at_ok m d V B). reflexivity. Qed.
Lemma check_dim2_ok m d : valid m -> 0 <= d <= t_dim m -> 0 <= nents_at m d -> check_dim2 m d = Ok tt.
Proof. intros V B N. unfold check_dim2. rewrite (check_dim_ok m d V B), (has_ents_ok m d V B). cbn [bind]. replace (0 <=? nents_at m d) with true by (symmetry; apply Z.leb_le; lia). reflexivity. Qed.
Lemma check_dim2_inv m d : valid m -> check_dim2 m d = Ok tt -> 0 <= d <= t_dim m /\ 0 <= nents_at m d.
Proof.
  intros V. unfold check_dim2. destruct (check_dim m d) as [[]| |] eqn:E; [|discriminate|discriminate]. apply check_dim_inv in E. cbn [bind]. rewrite (has_ents_ok m d V E). cbn [bind].
  destruct (Z.leb_spec 0 (nents_at m d)); [auto|discriminate].
Qed.
Lemma tags_none m d : valid m -> nents_at m d < 0 -> tags_at m d = [].
Proof. intros (_ & _ & _ & V) N. destruct (V d) as [_ K]. destruct (tags_at m d); [reflexivity|]. destruct K; [discriminate|lia]. Qed.

(** replacing the list of one dimension *)
Definition with_tags (m : tmesh) (d : Z) (l : list tag) (m' : tmesh) : Prop :=
  alike m m' /\ valid m' /\ forall d', tags_at m' d' = if d' =? d then l else tags_at m d'.
Lemma set_list m d l : valid m -> 0 <= d <= t_dim m -> (l <> [] -> 0 <= nents_at m d) -> NoDup (names l) ->
  exists ts, zset (t_tags m) d l = Ok ts /\ with_tags m d l (mk_tmesh (t_dim m) (t_nents m) ts).
Proof.
  intros V B N Nd. pose proof V as (V1 & V2 & V3 & V4). destruct (zset_in_range (t_tags m) d l) as [ts Hts]; [lia|].
  exists ts. split; [exact Hts|]. assert (T : forall d', tags_at (mk_tmesh (t_dim m) (t_nents m) ts) d' = if d' =? d then l else tags_at m d').
  { intros d'. unfold tags_at. cbn [t_tags]. destruct (Z.eqb_spec d' d) as [->|Ne]; [rewrite (zset_get_eq _ _ _ _ Hts); reflexivity|].
    rewrite (zset_get_ne _ _ _ _ _ Hts) by congruence. reflexivity. }
  split; [split; reflexivity|]. split; [|exact T]. split; [exact V1|]. split; [exact V2|]. split; [cbn [t_tags]; rewrite (zset_zlen _ _ _ _ Hts); exact V3|].
  intros d'. rewrite T. destruct (Z.eqb_spec d' d) as [->|Ne]; [|apply V4]. split; [exact Nd|]. intros K. cbn [t_dim]. split; [exact B|]. apply N. exact K.
Qed.

Lemma has_tag_ok m d n : valid m -> 0 <= d <= t_dim m -> has_tag m d n = Ok (match find_tag (tags_at m d) n with Some _ => true | None => false end).
Proof.
  intros V B. unfold has_tag. rewrite (check_dim_ok m d V B), (has_ents_ok m d V B). cbn [bind]. destruct (Z.leb_spec 0 (nents_at m d)) as [L|L]; cbn [negb].
  - rewrite (tags_at_ok m d V B). reflexivity.
  - rewrite (tags_none m d V L). reflexivity.
Qed.
Lemma remove_ok m d n : valid m -> 0 <= d <= t_dim m ->
  exists m', remove_tag m d n = Ok m' /\ alike m m' /\ valid m' /\
  forall d', tags_at m' d' = filter (fun t => negb ((d' =? d) && same_name (tag_name t) n)) (tags_at m d').
Proof.
  intros V B. pose proof V as (_ & _ & _ & V4). unfold remove_tag. rewrite (has_tag_ok m d n V B). cbn [bind]. destruct (find_tag (tags_at m d) n) as [t|] eqn:E; cbn [negb].
  - assert (Ne : tags_at m d <> []) by (intros Z0; rewrite Z0 in E; discriminate). destruct (V4 d) as [Nd K]. destruct (K Ne) as [_ N].
    rewrite (check_dim2_ok m d V B N), (tags_at_ok m d V B). cbn [bind].
    destruct (set_list m d (erase_tag (tags_at m d) n) V B) as (ts & Hts & A & V' & T); [auto|rewrite (erase_filter _ _ Nd); rewrite (names_filter (fun x => negb (same_name x n))); apply filter_nodup; exact Nd|].
    rewrite Hts. cbn [bind]. eexists. split; [reflexivity|]. split; [exact A|]. split; [exact V'|]. intros d'. rewrite T. destruct (Z.eqb_spec d' d) as [->|Nd']; cbn [andb].
    + apply erase_filter. exact Nd.
    + symmetry. apply filter_all. reflexivity.
  - exists m. split; [reflexivity|]. split; [split; reflexivity|]. split; [exact V|]. intros d'. symmetry. apply filter_all. intros x Hx. destruct (Z.eqb_spec d' d) as [->|Nd']; cbn [andb]; [|reflexivity].
    apply find_none in E. apply Bool.negb_true_iff. apply same_name_false. intros En. apply E. rewrite <- En. apply in_map. exact Hx.
Qed.
Lemma remove_inv m d n m' : valid m -> remove_tag m d n = Ok m' -> 0 <= d <= t_dim m.
Proof. intros V. unfold remove_tag, has_tag. destruct (check_dim m d) as [[]| |] eqn:E; [|discriminate|discriminate]. apply check_dim_inv in E. auto. Qed.

Lemma react_ok m d n : valid m ->
  exists m', react_to_set_tag m d n = Ok m' /\ alike m m' /\ valid m' /\
  forall d', tags_at m' d' = filter (fun t => negb ((d =? 0) && derived (t_dim m) n d' (tag_name t))) (tags_at m d').
Proof.
  intros V. unfold react_to_set_tag, VERT, EDGE. pose proof V as (V1 & _).
  destruct (Z.eqb_spec d 0) as [->|Ne]; cbn [andb].
  2:{ cbn [bind]. exists m. split; [reflexivity|]. split; [split; reflexivity|]. split; [exact V|]. intros d'. symmetry. apply filter_all. reflexivity. }
  unfold derived. destruct (same_name n (name_of "coordinates")) eqn:Ec; cbn [orb].
  - destruct (remove_ok m 1 (name_of "length") V) as (m1 & E1 & [A1 A1'] & W1 & T1); [lia|]. rewrite E1. cbn [bind]. rewrite (mdim_ok m1 W1). cbn [bind].
    destruct (remove_ok m1 (t_dim m1) (name_of "quality") W1) as (m2 & E2 & [A2 A2'] & W2 & T2); [lia|]. rewrite E2. cbn [bind]. rewrite (mdim_ok m2 W2). cbn [bind].
    destruct (remove_ok m2 (t_dim m2) (name_of "size") W2) as (m3 & E3 & [A3 A3'] & W3 & T3); [lia|]. rewrite E3. exists m3. split; [reflexivity|]. split; [split; congruence|]. split; [exact W3|].
    intros d'. rewrite T3, T2, T1, !filter_filter. apply filter_ext. intros t. rewrite A2, A1.
    destruct (d' =? 1), (d' =? t_dim m), (same_name (tag_name t) (name_of "length")), (same_name (tag_name t) (name_of "quality")), (same_name (tag_name t) (name_of "size")); reflexivity.
  - destruct (same_name n (name_of "metric")) eqn:Em.
    + destruct (remove_ok m 1 (name_of "length") V) as (m1 & E1 & [A1 A1'] & W1 & T1); [lia|]. rewrite E1. cbn [bind]. rewrite (mdim_ok m1 W1). cbn [bind].
      destruct (remove_ok m1 (t_dim m1) (name_of "quality") W1) as (m2 & E2 & [A2 A2'] & W2 & T2); [lia|]. rewrite E2. cbn [bind]. exists m2. split; [reflexivity|]. split; [split; congruence|]. split; [exact W2|].
      intros d'. rewrite T2, T1, !filter_filter. apply filter_ext. intros t. rewrite A1.
      destruct (d' =? 1), (d' =? t_dim m), (same_name (tag_name t) (name_of "length")), (same_name (tag_name t) (name_of "quality")); reflexivity.
    + cbn [bind]. exists m. split; [reflexivity|]. split; [split; reflexivity|]. split; [exact V|]. intros d'. symmetry. apply filter_all. reflexivity.
Qed.

Lemma add_inv m type d n nc a internal m' : valid m -> add_tag m type d n nc a internal = Ok m' ->
  0 <= d <= t_dim m /\ 0 <= nents_at m d /\ alike m m' /\ valid m' /\ n <> [] /\ (forall x, a = Some x -> zlen x = nents_at m d * nc) /\
  forall d', tags_at m' d' = filter (fun t => negb (negb internal && (d =? 0) && derived (t_dim m) n d' (tag_name t)))
    (if d' =? d then put (tags_at m d) (mk_tag n type nc a) else tags_at m d').
Proof.
  intros V E. unfold add_tag in E. apply bind_ok in E as (l & Hl & E). apply bind_ok in E as ([] & Hc & E). pose proof V as (V1 & V2 & V3 & V4).
  assert (Tl : tags_at m d = l) by (unfold tags_at; rewrite Hl; reflexivity).
  assert (B : 0 <= d <= t_dim m /\ 0 <= nents_at m d).
  { destruct (find_tag l n) as [t|] eqn:F.
    - apply V4. rewrite Tl. intros Z0. rewrite Z0 in F. discriminate.
    - apply bind_ok in Hc as ([] & Hc & _). apply (check_dim2_inv m d V Hc). }
  destruct B as [B N]. split; [exact B|]. split; [exact N|].
  destruct n as [|c n0]; [discriminate|]. set (n := c :: n0) in *. apply bind_ok in E as ([] & Ha & E).
  assert (Za : forall x, a = Some x -> zlen x = nents_at m d * nc).
  { intros x ->. rewrite (nents_at_ok m d V B) in Ha. cbn [bind] in Ha. destruct (Z.eqb_spec (zlen x) (nents_at m d * nc)); [assumption|discriminate]. }
  assert (P : (if match find_tag l n with Some _ => true | None => false end then replace_tag l n (mk_tag n type nc a) else l ++ [mk_tag n type nc a]) = put l (mk_tag n type nc a)).
  { unfold put. cbn [tag_name]. destruct (find_tag l n); reflexivity. }
  rewrite P in E. destruct (set_list m d (put l (mk_tag n type nc a)) V B) as (ts & Hts & A & V' & T).
  { auto. } { apply put_nodup. rewrite <- Tl. apply V4. }
  rewrite Hts in E. cbn [bind] in E. set (m1 := mk_tmesh (t_dim m) (t_nents m) ts) in *. destruct internal; cbn [negb andb].
  - inversion E; subst m'. split; [exact A|]. split; [exact V'|]. split; [discriminate|]. split; [exact Za|]. intros d'. rewrite T, Tl. symmetry. apply filter_all. reflexivity.
  - destruct (react_ok m1 d n V') as (m2 & E2 & [A2 A2'] & V2' & T2). rewrite E2 in E. inversion E; subst m'. destruct A as [A A'].
    split; [split; congruence|]. split; [exact V2'|]. split; [discriminate|]. split; [exact Za|]. intros d'. rewrite T2, T, Tl. reflexivity.
Qed.

Lemma derived_not_vert dim n n' : 1 <= dim -> derived dim n 0 n' = false.
Proof. intros H. unfold derived. replace (0 =? 1) with false by reflexivity. replace (0 =? dim) with false by (symmetry; apply Z.eqb_neq; lia). cbn [andb orb]. destruct (same_name n _); [reflexivity|]. destruct (same_name n _); reflexivity. Qed.

Definition shows (e : effect) (old new : option tag) : Prop :=
  match e with Stores ty a => exists t, new = Some t /\ tag_type t = ty /\ tag_array t = a | Wipes => new = None | Nothing => new = old end.

Lemma add_effect m type d n nc a internal m' : valid m -> add_tag m type d n nc a internal = Ok m' ->
  alike m m' /\ valid m' /\
  (forall d' n', shows (effect_of (t_dim m) (Add type d n nc a internal) d' n') (find_tag (tags_at m d') n') (find_tag (tags_at m' d') n')) /\
  forall d', names (tags_at m' d') = order_step (t_dim m) d' (names (tags_at m d')) (Add type d n nc a internal).
Proof.
  intros V E. destruct (add_inv m type d n nc a internal m' V E) as (B & N & A & V' & _ & _ & T). split; [exact A|]. split; [exact V'|]. pose proof V as (V1 & _). split.
  - intros d' n'. rewrite T, (find_filter (fun x => negb (negb internal && (d =? 0) && derived (t_dim m) n d' x))). cbn [effect_of].
    destruct (Z.eqb_spec d d') as [->|Ne]; cbn [andb].
    + rewrite Z.eqb_refl, find_put. cbn [tag_name]. destruct (same_name n n') eqn:Es.
      * assert (K : negb internal && (d' =? 0) && derived (t_dim m) n d' n' = false).
        { destruct (Z.eqb_spec d' 0) as [->|]; [|rewrite andb_false_r; reflexivity]. rewrite derived_not_vert by lia. apply andb_false_r. }
        rewrite K. cbn [negb]. eexists. split; [reflexivity|]. auto.
      * destruct (negb internal && (d' =? 0) && derived (t_dim m) n d' n'); reflexivity.
    + replace (d' =? d) with false by (symmetry; apply Z.eqb_neq; congruence).
      destruct (negb internal && (d =? 0) && derived (t_dim m) n d' n'); reflexivity.
  - intros d'. rewrite T, (names_filter (fun x => negb (negb internal && (d =? 0) && derived (t_dim m) n d' x))). unfold order_step.
    assert (X : names (if d' =? d then put (tags_at m d) (mk_tag n type nc a) else tags_at m d') =
      names (tags_at m d') ++ (if (d =? d') && negb (existsb (same_name n) (names (tags_at m d'))) then [n] else [])).
    { rewrite (Z.eqb_sym d d'). destruct (Z.eqb_spec d' d) as [->|Ne]; cbn [andb]; [|rewrite app_nil_r; reflexivity]. rewrite names_put. cbn [tag_name]. destruct (existsb _ _); cbn [negb]; [rewrite app_nil_r|]; reflexivity. }
    rewrite X. apply filter_ext. intros x. cbn [effect_of]. destruct (Z.eqb_spec d d') as [->|Ne]; cbn [andb].
    + destruct (same_name n x) eqn:Es.
      * destruct (Z.eqb_spec d' 0) as [->|]; [|rewrite andb_false_r; reflexivity]. rewrite derived_not_vert by lia. rewrite andb_false_r. reflexivity.
      * destruct (negb internal && (d' =? 0) && derived (t_dim m) n d' x); reflexivity.
    + destruct (negb internal && (d =? 0) && derived (t_dim m) n d' x); reflexivity.
Qed.
Lemma set_effect m type d n a internal m' : valid m -> set_tag m type d n a internal = Ok m' ->
  0 < nents_at m d /\ (nents_at m d | zlen a) /\ add_tag m type d n (zlen a / nents_at m d) (Some a) internal = Ok m'.
Proof.
  intros V E. unfold set_tag, nents in E. apply bind_ok in E as (k & Hk & E). apply bind_ok in Hk as ([] & C & Hk). apply (check_dim2_inv m d V) in C as [B N]. rewrite (nents_at_ok m d V B) in Hk. inversion Hk; subst k.
  destruct (Z.eqb_spec (nents_at m d) 0); [discriminate|]. destruct (Z.eqb_spec (Z.rem (zlen a) (nents_at m d)) 0) as [R|R]; cbn [negb] in E; [|discriminate].
  split; [lia|]. pose proof (zlen_nonneg a). rewrite Z.rem_mod_nonneg in R by lia. split; [apply Z.mod_divide; lia|]. rewrite Z.quot_div_nonneg in E by lia. exact E.
Qed.
Lemma op_effect m o m' : valid m -> run_op m o = Ok m' ->
  alike m m' /\ valid m' /\ (forall d n, shows (effect_of (t_dim m) o d n) (find_tag (tags_at m d) n) (find_tag (tags_at m' d) n)) /\
  forall d, names (tags_at m' d) = order_step (t_dim m) d (names (tags_at m d)) o.
Proof.
  intros V E. destruct o as [type d n nc a internal|type d n a internal|d n]; cbn [run_op] in E.
  - apply (add_effect m type d n nc a internal m' V E).
  - apply (set_effect m type d n a internal m' V) in E as (_ & _ & E). apply (add_effect m type d n _ _ internal m' V E).
  - pose proof (remove_inv m d n m' V E) as B. destruct (remove_ok m d n V B) as (m1 & E1 & A & V' & T). rewrite E in E1. inversion E1; subst m1. split; [exact A|]. split; [exact V'|]. split.
    + intros d' n'. rewrite T, (find_filter (fun x => negb ((d' =? d) && same_name x n))). cbn [effect_of]. rewrite (Z.eqb_sym d d'), (same_name_sym n n').
      destruct ((d' =? d) && same_name n' n); reflexivity.
    + intros d'. rewrite T, (names_filter (fun x => negb ((d' =? d) && same_name x n))). unfold order_step. rewrite app_nil_r. apply filter_ext. intros x. cbn [effect_of].
      rewrite (Z.eqb_sym d d'), (same_name_sym n x). destruct ((d' =? d) && same_name x n); reflexivity.
Qed.

Lemma untagged_valid m : untagged m -> valid m /\ forall d, tags_at m d = [].
Proof.
  intros (U1 & U2 & U3). assert (T : forall d, tags_at m d = []).
  { intros d. unfold tags_at. rewrite U3. destruct (zget _ d) as [l| |] eqn:E; [|reflexivity|reflexivity]. apply zget_In in E. cbn in E. intuition congruence. }
  split; [|exact T]. split; [exact U1|]. split; [exact U2|]. split; [rewrite U3; reflexivity|]. intros d. rewrite T. split; [constructor|]. congruence.
Qed.

Definition agrees (dim : Z) (ops : list tag_op) (m : tmesh) : Prop :=
  (forall d n, match stored dim (rev ops) d n with
     | Some (ty, a) => exists t, find_tag (tags_at m d) n = Some t /\ tag_type t = ty /\ tag_array t = a
     | None => find_tag (tags_at m d) n = None end) /\
  forall d, names (tags_at m d) = order dim ops d.
Lemma run_agrees m0 : untagged m0 -> forall ops m, foldM run_op ops m0 = Ok m -> alike m0 m /\ valid m /\ agrees (t_dim m0) ops m.
Proof.
  intros U. destruct (untagged_valid m0 U) as [V0 T0]. induction ops as [|o ops IH] using rev_ind; intros m E.
  - inversion E; subst m. split; [split; reflexivity|]. split; [exact V0|]. split; intros; rewrite T0; reflexivity.
  - rewrite foldM_app in E. apply bind_ok in E as (m1 & E1 & E2). cbn [foldM] in E2. apply bind_ok in E2 as (m2 & E2 & E3). inversion E3; subst m2.
    destruct (IH m1 E1) as ([A1 A2] & V1 & G1 & G2). destruct (op_effect m1 o m V1 E2) as ([B1 B2] & V2 & S1 & S2). split; [split; congruence|]. split; [exact V2|]. split.
    + intros d n. rewrite rev_app_distr. cbn [rev app stored]. specialize (S1 d n). rewrite A1 in S1. destruct (effect_of (t_dim m0) o d n); cbn [shows] in S1; [exact S1|exact S1|].
      rewrite S1. apply G1.
    + intros d. rewrite S2, G2, A1. unfold order. rewrite fold_left_app. reflexivity.
Qed.

(** ** The statements *)
Lemma history m0 ops m : untagged m0 -> foldM run_op ops m0 = Ok m ->
  t_dim m = t_dim m0 /\ t_nents m = t_nents m0 /\
  forall d n, 0 <= d <= t_dim m0 -> (exists k, zget (t_nents m0) d = Ok k /\ 0 <= k) ->
  match stored (t_dim m0) (rev ops) d n with
  | Some (ty, a) => has_tag m d n = Ok true /\ get_array m ty d n = Ok a /\ exists t, get_tagbase m d n = Ok t /\ tag_name t = n /\ tag_type t = ty
  | None => has_tag m d n = Ok false /\ get_tagbase m d n = Abort
  end.
Proof.
  intros U E. destruct (run_agrees m0 U ops m E) as ([A1 A2] & V & G1 & _). split; [exact A1|]. split; [exact A2|]. intros d n B (k & K1 & K2).
  assert (B' : 0 <= d <= t_dim m) by lia. assert (N : 0 <= nents_at m d) by (unfold nents_at; rewrite A2, K1; exact K2).
  unfold get_array, get_tagbase. rewrite (has_tag_ok m d n V B'), (check_dim2_ok m d V B' N), (tags_at_ok m d V B'). cbn [bind].
  specialize (G1 d n). destruct (stored _ _ d n) as [[ty a]|].
  - destruct G1 as (t & F & Ty & Ar). rewrite F. cbn [bind]. split; [reflexivity|]. rewrite Ty, Z.eqb_refl, Ar. split; [reflexivity|]. exists t. apply find_name in F. tauto.
  - rewrite G1. auto.
Qed.
Lemma numbered m0 ops m : untagged m0 -> foldM run_op ops m0 = Ok m ->
  forall d, 0 <= d <= t_dim m0 -> (exists k, zget (t_nents m0) d = Ok k /\ 0 <= k) ->
  NoDup (order (t_dim m0) ops d) /\ ntags m d = Ok (zlen (order (t_dim m0) ops d)) /\
  (forall i n, zget (order (t_dim m0) ops d) i = Ok n -> exists t, get_tag_i m d i = Ok t /\ get_tagbase m d n = Ok t /\ tag_name t = n) /\
  (forall i, i < 0 \/ zlen (order (t_dim m0) ops d) < i -> get_tag_i m d i = Abort) /\
  get_tag_i m d (zlen (order (t_dim m0) ops d)) = UB.
Proof.
  intros U E d B (k & K1 & K2). destruct (run_agrees m0 U ops m E) as ([A1 A2] & V & _ & G2). pose proof V as (_ & _ & _ & V4).
  assert (B' : 0 <= d <= t_dim m) by lia. assert (N : 0 <= nents_at m d) by (unfold nents_at; rewrite A2, K1; exact K2). rewrite <- G2. unfold names at 2 4 5. rewrite !zlen_map.
  split; [apply V4|]. unfold get_tag_i, ntags, get_tagbase. rewrite (check_dim2_ok m d V B' N), (tags_at_ok m d V B'). cbn [bind]. pose proof (zlen_nonneg (tags_at m d)) as Ln.
  split; [reflexivity|]. split; [|split].
  - intros i n Hi. pose proof (zget_bounds _ _ _ Hi) as Bi. unfold names in Bi. rewrite zlen_map in Bi.
    replace (0 <=? i) with true by (symmetry; apply Z.leb_le; lia). replace (i <=? zlen (tags_at m d)) with true by (symmetry; apply Z.leb_le; lia). cbn [negb].
    destruct (zget_in_range (tags_at m d) i Bi) as [t Ht]. exists t. split; [exact Ht|].
    assert (Nt : tag_name t = n). { unfold names in Hi. rewrite zget_map, Ht in Hi. cbn in Hi. congruence. }
    split; [|exact Nt]. destruct (find_tag (tags_at m d) n) as [x|] eqn:F.
    + apply find_name in F as [F1 F2]. enough (x = t) by congruence. destruct (V4 d) as [Nd _]. apply zget_In in Ht. clear - F1 F2 Nd Ht Nt. unfold names in Nd.
      induction (tags_at m d) as [|y l IH]; [destruct Ht|]. cbn in Nd. inversion Nd as [|? ? N1 N2]; subst. destruct F2 as [->|F2], Ht as [->|Ht]; [reflexivity| | |auto].
      * exfalso. apply N1. rewrite F1. apply in_map. exact Ht.
      * exfalso. apply N1. rewrite <- F1. apply in_map. exact F2.
    + apply find_none in F. exfalso. apply F. rewrite <- Nt. apply in_map. eapply zget_In; eauto.
  - intros i [Hi|Hi].
    + replace (0 <=? i) with false by (symmetry; apply Z.leb_gt; lia). reflexivity.
    + replace (0 <=? i) with true by (symmetry; apply Z.leb_le; lia). replace (i <=? zlen (tags_at m d)) with false by (symmetry; apply Z.leb_gt; lia). reflexivity.
  - replace (0 <=? zlen (tags_at m d)) with true by (symmetry; apply Z.leb_le; lia). rewrite Z.leb_refl. cbn [negb].
    destruct (zget (tags_at m d) (zlen (tags_at m d))) as [t| |] eqn:Z0; [apply zget_bounds in Z0; lia|apply zget_not_abort in Z0; destruct Z0|reflexivity].
Qed.
