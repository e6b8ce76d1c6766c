From Verif Require Import Prelude M_Linpart S_Linpart.
Local Open Scope Z_scope.

(* first item of part r *)
Definition part_start (n p r : Z) : Z := r * (n / p) + Z.min r (n mod p).

Lemma part_size_nonneg n p r : 0 <= n -> 0 < p -> 0 <= part_size n p r.
Proof.
  intros. unfold part_size. assert (0 <= n / p) by (apply Z.div_pos; lia).
  destruct (r <? n mod p); lia.
Qed.

Lemma part_start_succ n p r : part_start n p (r + 1) = part_start n p r + part_size n p r.
Proof. unfold part_start, part_size. destruct (Z.ltb_spec r (n mod p)); lia. Qed.

Lemma part_start_0 n p : 0 <= n -> 0 < p -> part_start n p 0 = 0.
Proof. intros. unfold part_start. pose proof (Z.mod_pos_bound n p ltac:(lia)). lia. Qed.

Lemma part_start_p n p : 0 <= n -> 0 < p -> part_start n p p = n.
Proof.
  intros. unfold part_start. pose proof (Z.mod_pos_bound n p ltac:(lia)).
  pose proof (Z.div_mod n p ltac:(lia)). lia.
Qed.

Definition lo_upto (n p k : Z) : list (Z * Z) :=
  flat_map (fun r => map (fun i => (r, i)) (zrange (part_size n p r))) (zrange k).

Lemma lo_upto_len n p k : 0 <= n -> 0 < p -> 0 <= k -> zlen (lo_upto n p k) = part_start n p k.
Proof.
  intros Hn Hp. revert k. apply (natlike_ind (fun k => zlen (lo_upto n p k) = part_start n p k)).
  - unfold lo_upto. rewrite zrange_0. cbn [flat_map]. rewrite part_start_0; auto.
  - intros k Hk IH. unfold lo_upto in *. replace (Z.succ k) with (k + 1) by lia.
    rewrite zrange_succ by lia. rewrite flat_map_app, zlen_app, IH. cbn [flat_map].
    rewrite app_nil_r, zlen_map, zlen_zrange, part_start_succ by (apply part_size_nonneg; lia).
    lia.
Qed.

Lemma laid_out_get n p k r i : 0 <= n -> 0 < p -> 0 <= r < k -> 0 <= i < part_size n p r ->
  zget (lo_upto n p k) (part_start n p r + i) = Ok (r, i).
Proof.
  intros Hn Hp [Hr Hk] Hi.
  assert (0 <= k) as Hk0 by lia. revert k Hk0 Hk.
  apply (natlike_ind (fun k => r < k -> zget (lo_upto n p k) (part_start n p r + i) = Ok (r, i))).
  - lia.
  - intros k Hk IH Hr'. unfold lo_upto. replace (Z.succ k) with (k + 1) by lia.
    rewrite zrange_succ by lia. rewrite flat_map_app. fold (lo_upto n p k). cbn [flat_map]. rewrite app_nil_r.
    destruct (Z.eq_dec r k) as [->|Hne].
    + rewrite zget_app_r by (rewrite lo_upto_len by lia; lia).
      rewrite lo_upto_len by lia. replace (part_start n p k + i - part_start n p k) with i by lia.
      rewrite zget_map, zget_zrange by lia. reflexivity.
    + rewrite zget_app_l; [apply IH; lia|].
      rewrite lo_upto_len by lia.
      assert (part_start n p (r + 1) <= part_start n p k).
      { unfold part_start. assert (0 <= n / p) by (apply Z.div_pos; lia). nia. }
      rewrite part_start_succ in *. unfold part_start at 1.
      pose proof (Z.mod_pos_bound n p ltac:(lia)).
      assert (0 <= n / p) by (apply Z.div_pos; lia). unfold part_start in *. nia.
Qed.

Lemma cdiv_ok a b : 0 <= a -> 0 < b -> cdiv a b = Ok (a / b).
Proof. intros. unfold cdiv. destruct (Z.eqb_spec b 0); [lia|]. rewrite Z.quot_div_nonneg by lia. reflexivity. Qed.
Lemma cmod_ok a b : 0 <= a -> 0 < b -> cmod a b = Ok (a mod b).
Proof. intros. unfold cmod. destruct (Z.eqb_spec b 0); [lia|]. rewrite Z.rem_mod_nonneg by lia. reflexivity. Qed.

Lemma owner1_spec n p g : 0 <= n -> 0 < p -> 0 <= g < n ->
  exists r i, linear_owner1 (n / p) (n mod p) ((n / p + 1) * (n mod p)) g = Ok (r, i) /\
    0 <= r < p /\ 0 <= i < part_size n p r /\ g = part_start n p r + i.
Proof.
  intros Hn Hp Hg. unfold linear_owner1.
  pose proof (Z.div_mod n p ltac:(lia)) as Hdm. pose proof (Z.mod_pos_bound n p ltac:(lia)) as Hm.
  assert (0 <= n / p) as Hq by (apply Z.div_pos; lia).
  set (q := n / p) in *. set (m := n mod p) in *.
  destruct (Z.ltb_spec g ((q + 1) * m)) as [H|H].
  - rewrite cdiv_ok, cmod_ok by lia. cbn [bind].
    pose proof (Z.div_mod g (q + 1) ltac:(lia)). pose proof (Z.mod_pos_bound g (q + 1) ltac:(lia)).
    assert (0 <= g / (q + 1)) by (apply Z.div_pos; lia).
    assert (g / (q + 1) < m) by (apply Z.div_lt_upper_bound; lia).
    do 2 eexists. split; [reflexivity|]. unfold part_size, part_start. fold q m.
    destruct (Z.ltb_spec (g / (q + 1)) m); [|lia]. repeat split; try lia; try nia.
  - assert (0 < q). { destruct (Z.eq_dec q 0) as [E|]; [|lia]. rewrite E in *. lia. }
    rewrite cdiv_ok, cmod_ok by lia. cbn [bind].
    set (g' := g - (q + 1) * m) in *.
    pose proof (Z.div_mod g' q ltac:(lia)). pose proof (Z.mod_pos_bound g' q ltac:(lia)).
    assert (0 <= g' / q) by (apply Z.div_pos; lia).
    assert (g' / q < p - m) by (apply Z.div_lt_upper_bound; nia).
    do 2 eexists. split; [reflexivity|]. unfold part_size, part_start. fold q m.
    destruct (Z.ltb_spec (g' / q + m) m); [lia|]. repeat split; try lia; unfold g' in *; nia.
Qed.

Lemma linear_owners_laid_out globals n p :
  0 <= n -> 0 < p -> Forall (fun g => 0 <= g < n) globals ->
  exists owners, globals_to_linear_owners globals n p = Ok owners /\
    Forall2 (fun g o => zget (laid_out n p) g = Ok o) globals owners.
Proof.
  intros Hn Hp Hg. unfold globals_to_linear_owners.
  rewrite cdiv_ok, cmod_ok by lia. cbn [bind].
  induction Hg as [|g gs Hg Hgs (os & IH & IHF)].
  - exists []. split; [reflexivity|constructor].
  - destruct (owner1_spec n p g Hn Hp Hg) as (r & i & E & Hr & Hi & Eg).
    cbn [mapM]. rewrite E, IH. cbn [bind]. eexists; split; [reflexivity|]. constructor; [|exact IHF].
    rewrite Eg. apply laid_out_get; lia.
Qed.

Lemma laid_out_len n p : 0 <= n -> 0 < p -> zlen (laid_out n p) = n.
Proof. intros. unfold laid_out. fold (lo_upto n p p). rewrite lo_upto_len by lia. apply part_start_p; lia. Qed.

Lemma laid_out_in n p r i : 0 <= n -> 0 < p ->
  In (r, i) (laid_out n p) <-> 0 <= r < p /\ 0 <= i < part_size n p r.
Proof.
  intros Hn Hp. unfold laid_out. rewrite in_flat_map. split.
  - intros (r' & Hr & Hin). apply in_map_iff in Hin as (i' & E & Hi). injection E as -> ->.
    apply in_zrange in Hr. apply in_zrange in Hi. auto.
  - intros [Hr Hi]. exists r. split; [apply in_zrange, Hr|]. apply in_map. apply in_zrange, Hi.
Qed.

Lemma NoDup_flat_map_pairs (f : Z -> Z) l : NoDup l ->
  NoDup (flat_map (fun r => map (fun i => (r, i)) (zrange (f r))) l).
Proof.
  induction 1 as [|r l Hr Hl IH]; [constructor|]. cbn [flat_map].
  assert (NoDup (map (fun i => (r, i)) (zrange (f r)))) as H1.
  { apply Injective_map_NoDup; [intros a b E; congruence|apply zrange_NoDup]. }
  assert (forall x, In x (map (fun i => (r, i)) (zrange (f r))) ->
          ~ In x (flat_map (fun r0 => map (fun i => (r0, i)) (zrange (f r0))) l)) as H2.
  { intros x Hx Hin. apply in_map_iff in Hx as (i & <- & _). apply in_flat_map in Hin as (r' & Hr' & Hin).
    apply in_map_iff in Hin as (i' & E & _). injection E as -> _. contradiction. }
  revert H1 H2. generalize (map (fun i => (r, i)) (zrange (f r))). intros m.
  induction m as [|x m IHm]; intros H1 H2; [exact IH|]. cbn [app]. inversion H1; subst. constructor.
  - rewrite in_app_iff. intros [?|?]; [contradiction|]. apply (H2 x); [left; reflexivity|assumption].
  - apply IHm; [assumption|]. intros y Hy. apply H2. right; exact Hy.
Qed.

Lemma laid_out_NoDup n p : NoDup (laid_out n p).
Proof. apply NoDup_flat_map_pairs, zrange_NoDup. Qed.

Lemma linear_partition_size_spec n p r : 0 <= n -> 0 < p ->
  linear_partition_size n p r = Ok (part_size n p r).
Proof.
  intros. unfold linear_partition_size. rewrite cdiv_ok, cmod_ok by lia. cbn [bind]. unfold part_size.
  destruct (r <? n mod p); f_equal; lia.
Qed.

Lemma find_total_max l a : fold_left Z.max l a >= a /\ (forall g, In g l -> g <= fold_left Z.max l a) /\
  (fold_left Z.max l a = a \/ In (fold_left Z.max l a) l).
Proof.
  revert a. induction l as [|x l IH]; intros a; cbn.
  - split; [lia|]. split; [tauto|]. left; reflexivity.
  - destruct (IH (Z.max a x)) as (H1 & H2 & H3). split; [lia|]. split.
    + intros g [->|Hg]; [lia|]. apply H2, Hg.
    + destruct H3 as [H3|H3]; [|right; right; exact H3]. rewrite H3.
      destruct (Z.max_dec a x) as [E|E]; rewrite E; [left|right; left]; congruence.
Qed.

Lemma find_total_spec per_rank :
  Forall (Forall (fun g => 0 <= g)) per_rank ->
  let n := find_total_globals per_rank in
  0 <= n /\ (forall l g, In l per_rank -> In g l -> g < n) /\
  (n = 0 /\ concat per_rank = [] \/ exists l, In l per_rank /\ In (n - 1) l).
Proof.
  intros Hp n. unfold find_total_globals in n.
  destruct (find_total_max (concat per_rank) go_min) as (H1 & H2 & H3).
  set (a := fold_left Z.max (concat per_rank) go_min) in *.
  assert (forall g, In g (concat per_rank) -> 0 <= g) as Hnn.
  { intros g Hg. apply in_concat in Hg as (l & Hl & Hg). rewrite Forall_forall in Hp.
    specialize (Hp l Hl). rewrite Forall_forall in Hp. exact (Hp g Hg). }
  subst n. destruct (Z.ltb_spec a 0).
  - assert (concat per_rank = []) as E.
    { destruct (concat per_rank) as [|g l] eqn:E; [reflexivity|exfalso].
      pose proof (H2 g (or_introl eq_refl)). pose proof (Hnn g (or_introl eq_refl)). lia. }
    split; [lia|]. split; [|left; split; [reflexivity|exact E]].
    intros l g Hl Hg. exfalso. assert (In g (concat per_rank)) as Hin by (apply in_concat; eauto).
    rewrite E in Hin. exact Hin.
  - split; [lia|]. split.
    + intros l g Hl Hg. assert (In g (concat per_rank)) as Hin by (apply in_concat; eauto).
      specialize (H2 g Hin). lia.
    + right. destruct H3 as [H3|H3]; [unfold go_min in *; lia|].
      apply in_concat in H3 as (l & Hl & Hg). exists l. split; [exact Hl|].
      replace (a + 1 - 1) with a by lia. exact Hg.
Qed.

Lemma linear_owners_bijection n p : 0 <= n -> 0 < p ->
  exists owners, globals_to_linear_owners (zrange n) n p = Ok owners /\
    NoDup owners /\
    (forall r i, In (r, i) owners <->
       0 <= r < p /\ exists s, linear_partition_size n p r = Ok s /\ 0 <= i < s).
Proof.
  intros Hn Hp. destruct (linear_owners_laid_out (zrange n) n p Hn Hp) as (os & E & F).
  { apply Forall_forall. intros g Hg. apply in_zrange, Hg. }
  exists os. split; [exact E|].
  assert (os = laid_out n p) as ->.
  { apply list_eq_zget.
    - rewrite laid_out_len by lia. pose proof (Forall2_len _ _ _ F) as HL. pose proof (zlen_zrange n Hn).
      unfold zlen in *. lia.
    - intros g Hg. assert (zlen os = n) as Hos.
      { pose proof (Forall2_len _ _ _ F). pose proof (zlen_zrange n Hn). unfold zlen in *. lia. }
      destruct (zget_in_range os g Hg) as (o & Eo). rewrite Eo. symmetry.
      clear -F Eo Hg Hos Hn.
      assert (forall l k, Forall2 (fun g o => zget (laid_out n p) g = Ok o) (map (fun x => x + k) (zrange (zlen l))) l ->
        forall g o, zget l g = Ok o -> zget (laid_out n p) (g + k) = Ok o) as H.
      { clear. induction l as [|x l IH]; intros k F g o Eo.
        - destruct (zget_bounds _ _ _ Eo). rewrite zlen_nil in *. lia.
        - rewrite zlen_cons in F. rewrite zrange_split_0 in F by (pose proof (zlen_nonneg l); lia).
          cbn [map] in F. inversion F as [|? ? ? ? F1 F2]; subst.
          destruct (zget_bounds _ _ _ Eo) as [B1 B2].
          destruct (Z.eq_dec g 0) as [->|Hg].
          + cbn in Eo. injection Eo as ->. exact F1.
          + replace (g + k) with ((g - 1) + (k + 1)) by lia. apply (IH (k + 1)).
            * rewrite map_map in F2. replace (zlen l + 1 - 1) with (zlen l) in F2 by lia.
              erewrite map_ext; [exact F2|]. intros y. cbn. lia.
            * unfold zget in *. destruct (Z.ltb_spec g 0); [lia|]. destruct (Z.ltb_spec (g - 1) 0); [lia|].
              replace (Z.to_nat g) with (S (Z.to_nat (g - 1))) in Eo by lia. exact Eo. }
      replace g with (g + 0) by lia. apply (H os 0); [|exact Eo].
      rewrite Hos. rewrite (map_ext _ (fun x => x)) by (intros; lia). rewrite map_id. exact F. }
  split; [apply laid_out_NoDup|]. intros r i. rewrite laid_out_in by lia.
  split; intros [Hr H]; split; try exact Hr.
  - exists (part_size n p r). split; [apply linear_partition_size_spec; lia|exact H].
  - destruct H as (s & Es & H). rewrite linear_partition_size_spec in Es by lia. injection Es as <-. exact H.
Qed.

Lemma part_sizes_sum n p : 0 <= n -> 0 < p ->
  exists sizes, mapM (linear_partition_size n p) (zrange p) = Ok sizes /\
    fold_left Z.add sizes 0 = n /\
    forall s, In s sizes -> n / p <= s <= n / p + 1.
Proof.
  intros Hn Hp. exists (map (part_size n p) (zrange p)). split; [|split].
  - apply mapM_map_ok. intros r _. apply linear_partition_size_spec; lia.
  - assert (forall k, 0 <= k -> fold_left Z.add (map (part_size n p) (zrange k)) 0 = part_start n p k) as H.
    { apply (natlike_ind (fun k => fold_left Z.add (map (part_size n p) (zrange k)) 0 = part_start n p k)).
      - rewrite zrange_0. cbn [map fold_left]. symmetry. apply part_start_0; lia.
      - intros k Hk IH. replace (Z.succ k) with (k + 1) by lia. rewrite zrange_succ by lia.
        rewrite map_app, fold_left_app, IH. cbn [map fold_left]. rewrite part_start_succ. lia. }
    rewrite H by lia. apply part_start_p; lia.
  - intros s Hs. apply in_map_iff in Hs as (r & <- & _). unfold part_size. generalize (n / p); intros q. destruct (r <? n mod p); lia.
Qed.
