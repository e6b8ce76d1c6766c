(** Adaptation and refinement of a mesh: the two ways the numbering is used. *)
From Verif Require Import Prelude M_Array M_Scan M_Map M_Align M_Graph M_Adj M_Mark M_Modify S_Map S_Graph S_Adj S_Mark S_Modify P_Array P_Map P_Map2 P_Mark P_Modify.
Local Open Scope Z_scope.

Lemma good_same ms e mm mm' mp n kept kept' r : (forall d md p, produced_by mm mp d md p <-> produced_by mm' mp d md p) -> (forall x, kept x <-> kept' x) ->
  good_numbering ms e mm mp n kept r -> good_numbering ms e mm' mp n kept' r.
Proof.
  intros HP HK (H1 & H2 & H3 & H4 & H5 & H6 & H7 & H8 & H9 & H10 & H11 & H12). unfold good_numbering.
  split; [intros x; rewrite H1, HK; reflexivity|]. split; [exact H2|]. split; [exact H3|]. split; [exact H4|]. split; [exact H5|]. split; [exact H6|]. split; [exact H7|]. split; [exact H8|].
  split; [intros x Hx Hk; apply H9; [exact Hx|rewrite HK; exact Hk]|]. split; [|split; [|exact H12]].
  - intros d md p y rep Hp Hr Hy. apply HP in Hp. destruct (H10 d md p y rep Hp Hr Hy) as [A B]. split.
    + intros x xn Hk. apply A, HK, Hk.
    + intros d' md' p' y' rep' Hp'. apply HP in Hp'. apply B, Hp'.
  - intros d md p y Hp Hp' Hy. apply HP in Hp. apply HP in Hp'. apply (H11 d md p y); assumption.
Qed.

Lemma at_only k l d : at_ (only_at k l) d = if (0 <=? d) && (d <? 4) && (d =? k) then Some l else None.
Proof. unfold only_at. rewrite at_map4. destruct (_ && _); [|reflexivity]. reflexivity. Qed.

Lemma all_sorted n : StronglySorted Z.lt (zrange n). Proof. apply zrange_sorted. Qed.

Lemma numbered_only k prods n : 0 <= k < 4 -> is_fan prods -> last_of prods = Ok n -> numbered_from 0 (only_at k prods) n.
Proof.
  intros Hk [H0 Hm] HL. unfold only_at. assert (k = 0 \/ k = 1 \/ k = 2 \/ k = 3) as [->|[->|[->| ->]]] by lia; cbn; (split; [exact H0|]; split; [exact Hm|]; exists n; split; [exact HL|reflexivity]).
Qed.

(** ** everything stays *)
Lemma kept_numbering_lemma ms ent_dim mods2mds marks mods2prods nprods : consistent ms -> 0 <= ent_dim <= mesh_dim ms -> modified_lists ms mods2mds mods2prods nprods ->
  (forall d prods, at_ mods2prods d = Some prods -> ent_dim <= d) ->
  exists r, modify_ents ms ent_dim mods2mds marks mods2prods true = Ok r /\ good_numbering ms ent_dim mods2mds mods2prods nprods (fun _ => True) r.
Proof.
  intros Hc Hed Hml Hd. apply (modify_general ms ent_dim mods2mds marks mods2prods nprods true (zrange (nents ms ent_dim))); try assumption.
  - reflexivity.
  - apply zrange_sorted.
  - intros x. rewrite in_zrange. tauto.
  - intros d md [Hex Hin]. apply exists_at in Hex as (p & Ep). pose proof (Hd d p Ep) as Hge. destruct Hml as (_ & _ & _ & HH). destruct (HH d p Ep) as (Hdd & mds & Em & _ & _ & R). unfold list_at in Hin. rewrite Em in Hin. specialize (R md Hin).
    destruct (Z.eq_dec d ent_dim) as [->|Hne]; [exists md; left; tauto|]. pose proof Hc as (_ & _ & HA). destruct (HA ent_dim d) as (Hdeg & L & _); [lia|lia|lia|]. destruct (zget_in_range (ask_down ms d ent_dim) (md * degree ms d ent_dim)) as (x & Ex); [nia|]. exists x. right; right. split; [lia|exact Ex].
  - intros. tauto.
  - intros d md d' md' rep [Hex _] _ _ _ Hlt. apply exists_at in Hex as (p & Ep). specialize (Hd d p Ep). lia.
Qed.

(** ** adaptation *)
Lemma touches_dec_marks ms key_dim keys : consistent ms -> 0 <= key_dim <= mesh_dim ms -> (forall k, In k keys -> 0 <= k < nents ms key_dim) ->
  exists km, mark_image keys (nents ms key_dim) = Ok km /\ zlen km = nents ms key_dim /\ (forall k, 0 <= k < nents ms key_dim -> says km k (In k keys)) /\
  forall d, key_dim < d <= mesh_dim ms -> exists dm, mark_up (ask_down ms d key_dim) (degree ms d key_dim) (nents ms d) km = Ok dm /\ zlen dm = nents ms d /\ forall x, 0 <= x < nents ms d -> says dm x (touches ms key_dim keys d x).
Proof.
  intros Hc Hk Hr. pose proof Hc as (_ & HN & HA). destruct (HN key_dim Hk) as [Hn _]. destruct (mark_image_spec keys (nents ms key_dim) Hn Hr) as (km & E & L & G). exists km. split; [exact E|]. split; [exact L|].
  assert (forall k, 0 <= k < nents ms key_dim -> says km k (In k keys)) as HS. { intros k Hkk. specialize (G k Hkk). destruct (in_dec Z.eq_dec k keys); [left|right]; tauto. }
  split; [exact HS|]. intros d Hd. destruct (HA key_dim d) as (Hdeg & Ld & Rd & _); [lia|lia|lia|]. destruct (HN d ltac:(lia)) as [Hnd _].
  destruct (mark_up_spec (ask_down ms d key_dim) (degree ms d key_dim) (nents ms d) km) as (dm & Ed & Ldm & Gd); [exact Hnd|lia|exact Ld| |].
  { intros l Hl. apply In_zget in Hl as (i & Ei). rewrite L. eapply Rd, Ei. }
  exists dm. split; [exact Ed|]. split; [exact Ldm|]. intros x Hx. eapply says_iff; [|apply Gd, Hx]. unfold touches. split.
  - intros (s & k & Hs & Ek & Hm). right. split; [lia|]. exists s, k. split; [exact Hs|]. split; [exact Ek|]. apply (says_marked _ _ _ (HS k (Rd _ _ Ek))), Hm.
  - intros [[? _]|(_ & s & k & Hs & Ek & Hm)]; [lia|]. exists s, k. split; [exact Hs|]. split; [exact Ek|]. apply (says_marked _ _ _ (HS k (Rd _ _ Ek))), Hm.
Qed.

Lemma says_bits m n P : zlen m = n -> (forall x, 0 <= x < n -> says m x (P x)) -> forall v, In v m -> v = 0 \/ v = 1.
Proof. intros L G v Hv. apply In_zget in Hv as (i & Ei). pose proof (zget_bounds _ _ _ Ei). destruct (G i) as [[E _]|[E _]]; [lia| |]; rewrite Ei in E; injection E as ->; tauto. Qed.

Lemma collect_unmarked m n P : zlen m = n -> (forall x, 0 <= x < n -> says m x (P x)) -> exists same, collect_marked (invert_marks m) = Ok same /\ StronglySorted Z.lt same /\ forall x, In x same <-> 0 <= x < n /\ ~ P x.
Proof.
  intros L G. destruct (collect_marked_full (invert_marks m)) as (r & E & S1 & G1).
  { intros v Hv. unfold invert_marks in Hv. apply in_map_iff in Hv as (w & <- & _). destruct (_ =? _); tauto. }
  exists r. split; [exact E|]. split; [exact S1|]. intros x. rewrite G1. split.
  - intros Ex. pose proof (zget_bounds _ _ _ Ex) as B. unfold invert_marks in B. rewrite zlen_map, L in B. split; [exact B|]. destruct (G x B) as [[Em Hp]|[Em Hp]]; [|exact Hp]. rewrite (invert_marks_spec _ _ _ Em) in Ex. discriminate.
  - intros [Hx Hp]. destruct (G x Hx) as [[Em Hp']|[Em _]]; [contradiction|]. rewrite (invert_marks_spec _ _ _ Em). reflexivity.
Qed.

Lemma uses_first ms a b k : consistent ms -> 0 <= a -> a < b -> b <= mesh_dim ms -> 0 <= k < nents ms a ->
  forall rep others, adj_targets (ask_up ms a b) k = Ok (rep :: others) -> exists s, 0 <= s < degree ms b a /\ zget (ask_down ms b a) (rep * degree ms b a + s) = Ok k.
Proof.
  intros Hc H1 H2 H3 Hk rep others Et. destruct Hc as (_ & _ & HA). destruct (HA a b H1 H2 H3) as (Hdeg & L & R & (_ & _ & U)). destruct (U k Hk) as [T _]. rewrite T in Et. injection Et as Et.
  assert (In rep (map (fun hl => hl / degree ms b a) (uses_of (ask_down ms b a) k))) as Hin by (rewrite Et; left; reflexivity). apply in_map_iff in Hin as (hl & <- & Hhl). unfold uses_of in Hhl. apply filter_In in Hhl as [_ Hu].
  exists (hl mod degree ms b a). split; [apply Z.mod_pos_bound; lia|]. replace (hl / degree ms b a * degree ms b a + hl mod degree ms b a) with hl by (rewrite (Z.div_mod hl (degree ms b a)) at 1 by lia; lia).
  destruct (zget (ask_down ms b a) hl) as [y| |]; try discriminate. f_equal. lia.
Qed.

Lemma adapt_numbering_lemma ms ent_dim key_dim keys2kds keys2prods nprods : consistent ms -> 0 <= ent_dim <= mesh_dim ms -> 0 <= key_dim <= mesh_dim ms ->
  NoDup keys2kds -> (forall k, In k keys2kds -> 0 <= k < nents ms key_dim) ->
  is_fan keys2prods -> zlen keys2prods = zlen keys2kds + 1 -> last_of keys2prods = Ok nprods ->
  (key_dim < ent_dim -> independent ms key_dim keys2kds ent_dim /\ forall k, In k keys2kds -> exists i, zget (ask_down ms ent_dim key_dim) i = Ok k) ->
  exists r, modify_ents_adapt ms ent_dim key_dim keys2kds keys2prods = Ok r /\
    good_numbering ms ent_dim (only_at key_dim keys2kds) (only_at key_dim keys2prods) nprods (fun x => ~ touches ms key_dim keys2kds ent_dim x) r.
Proof.
  intros Hc Hed Hkd ND R Fan L Last Hind. pose proof Hc as ((Hd0 & Hd3) & HN & HA).
  destruct (touches_dec_marks ms key_dim keys2kds Hc Hkd R) as (km & Ekm & Lkm & Gkm & Hup).
  set (f := fun d => if d =? key_dim then Ok (Some keys2kds, Some km) else if (key_dim <? d) && (d <=? mesh_dim ms) then
      marks <- mark_up (ask_down ms d key_dim) (degree ms d key_dim) (nents ms d) km ;; mds <- collect_marked marks ;; Ok (Some mds, Some marks) else Ok (None, None)).
  assert (forall d, exists v, f d = Ok v /\ (d = key_dim -> v = (Some keys2kds, Some km)) /\ (d <> key_dim -> fst v = None \/ exists l, fst v = Some l) /\
    (d < key_dim -> v = (None, None)) /\ (key_dim < d <= mesh_dim ms -> exists dm, snd v = Some dm /\ zlen dm = nents ms d /\ forall x, 0 <= x < nents ms d -> says dm x (touches ms key_dim keys2kds d x))) as Hf.
  { intros d. unfold f. destruct (Z.eqb_spec d key_dim) as [->|Hne].
    - exists (Some keys2kds, Some km). split; [reflexivity|]. split; [reflexivity|]. split; [tauto|]. split; lia.
    - destruct (Z.ltb_spec key_dim d) as [Hl|Hl], (Z.leb_spec d (mesh_dim ms)) as [Hm|Hm]; cbn [andb].
      + destruct (Hup d ltac:(lia)) as (dm & Edm & Ldm & Gdm). rewrite Edm. cbn [bind]. destruct (collect_marked_full dm (says_bits dm _ _ Ldm Gdm)) as (mds & Emds & _). rewrite Emds. cbn [bind]. exists (Some mds, Some dm). split; [reflexivity|]. split; [lia|]. split; [intros _; right; exists mds; reflexivity|]. split; [lia|]. intros _. exists dm. cbn [snd]. tauto.
      + exists (None, None). split; [reflexivity|]. split; [lia|]. split; [left; reflexivity|]. split; [reflexivity|lia].
      + exists (None, None). split; [reflexivity|]. split; [lia|]. split; [left; reflexivity|]. split; [reflexivity|lia].
      + exists (None, None). split; [reflexivity|]. split; [lia|]. split; [left; reflexivity|]. split; [reflexivity|lia]. }
  set (g := fun d => match f d with Ok v => v | _ => (None, None) end). assert (forall d, f d = Ok (g d)) as Hfg by (intros d; unfold g; destruct (Hf d) as (v & E & _); rewrite E; reflexivity).
  assert (Hg := Hf). unfold modify_ents_adapt. rewrite Ekm. cbn [bind]. fold f. rewrite (mapM_pure' f g) by (intros; apply Hfg). cbn [bind]. rewrite !map_map. set (mm := map (fun x => fst (g x)) (zrange 4)). set (marks := map (fun x => snd (g x)) (zrange 4)). change (map (fun d => if d =? key_dim then Some keys2prods else None) (zrange 4)) with (only_at key_dim keys2prods).
  assert (at_ mm key_dim = Some keys2kds) as Amm. { unfold mm. rewrite at_map4. destruct (Z.leb_spec 0 key_dim), (Z.ltb_spec key_dim 4); try lia. cbn [andb]. destruct (Hf key_dim) as (v & E & Hv & _). rewrite Hfg in E. injection E as ->. rewrite Hv by reflexivity. reflexivity. }
  assert (forall d p, at_ (only_at key_dim keys2prods) d = Some p -> d = key_dim /\ p = keys2prods) as Aonly. { intros d p. rewrite at_only. destruct (Z.eqb_spec d key_dim); [|rewrite andb_false_r; discriminate]. rewrite andb_true_r. destruct (_ && _); [|discriminate]. intros E. injection E as <-. tauto. }
  assert (forall d md, modified mm (only_at key_dim keys2prods) d md -> d = key_dim /\ In md keys2kds) as Hmod.
  { intros d md [Hex Hin]. apply exists_at in Hex as (p & Ep). apply Aonly in Ep as [-> _]. split; [reflexivity|]. unfold list_at in Hin. rewrite Amm in Hin. exact Hin. }
  assert (exists same, collect_same ms ent_dim marks false = Ok same /\ StronglySorted Z.lt same /\ forall x, In x same <-> 0 <= x < nents ms ent_dim /\ ~ touches ms key_dim keys2kds ent_dim x) as (same & Esame & Ssame & Gsame).
  { unfold collect_same. cbn [orb]. unfold exists_, the, marks. rewrite at_map4. destruct (Z.leb_spec 0 ent_dim), (Z.ltb_spec ent_dim 4); try lia. cbn [andb]. destruct (Hf ent_dim) as (v & E & H1 & _ & H3 & H4). rewrite Hfg in E. injection E as ->. destruct (Z.lt_total ent_dim key_dim) as [Hlt|[->|Hgt]].
    - rewrite H3 by exact Hlt. cbn [snd negb]. exists (zrange (nents ms ent_dim)). split; [reflexivity|]. split; [apply zrange_sorted|]. intros x. rewrite in_zrange. split; [|tauto]. intros Hx. split; [exact Hx|]. unfold touches. lia.
    - rewrite H1 by reflexivity. cbn [snd negb bind]. apply collect_unmarked; [exact Lkm|]. intros x Hx. eapply says_iff; [|apply Gkm, Hx]. unfold touches. split; [tauto|]. intros [[_ ?]|[? _]]; [assumption|lia].
    - destruct H4 as (dm & Edm & Ldm & Gdm); [lia|]. rewrite Edm. cbn [negb bind]. apply collect_unmarked; [exact Ldm|exact Gdm]. }
  assert (modified_lists ms mm (only_at key_dim keys2prods) nprods) as Hml.
  { split; [reflexivity|]. split; [reflexivity|]. split; [apply numbered_only; [lia|exact Fan|exact Last]|]. intros d p Ep. apply Aonly in Ep as [-> ->]. split; [lia|]. exists keys2kds. split; [exact Amm|]. split; [exact L|]. split; [exact ND|exact R]. }
  destruct (modify_general ms ent_dim mm marks (only_at key_dim keys2prods) nprods false same (fun x => ~ touches ms key_dim keys2kds ent_dim x)) as (r & Er & Gr); try assumption.
  - intros d md Hm. apply Hmod in Hm as [-> Hin]. pose proof (R md Hin) as Hmd. destruct (Z.lt_total key_dim ent_dim) as [Hlt|[->|Hgt]].
    + destruct (Hind Hlt) as [_ Hex]. destruct (Hex md Hin) as (i & Ei). destruct (HA key_dim ent_dim) as (Hdeg & Ld & Rd & (_ & _ & U)); [lia|lia|lia|]. destruct (U md Hmd) as [T _].
      assert (In i (uses_of (ask_down ms ent_dim key_dim) md)) as Hi by (unfold uses_of; apply filter_In; split; [apply in_zrange; eapply zget_bounds, Ei|rewrite Ei; apply Z.eqb_refl]).
      destruct (uses_of (ask_down ms ent_dim key_dim) md) as [|h us]; [destruct Hi|]. eexists. right. left. split; [exact Hlt|]. eexists. exact T.
    + exists md. left. tauto.
    + destruct (HA ent_dim key_dim) as (Hdeg & Ld & _); [lia|lia|lia|]. destruct (zget_in_range (ask_down ms key_dim ent_dim) (md * degree ms key_dim ent_dim)) as (x & Ex); [nia|]. exists x. right; right. split; [lia|exact Ex].
  - intros d md rep Hm Hre. apply Hmod in Hm as [-> Hin]. pose proof (R md Hin) as Hmd. split.
    + intros Hnt. right. destruct (Z_lt_le_dec ent_dim key_dim) as [Hl|Hl]; [exact Hl|]. exfalso. apply Hnt. destruct Hre as [(<- & ->)|[(Hlt & os & Et)|(Hlt & _)]]; [left; tauto| |lia].
      destruct (uses_first ms key_dim ent_dim md Hc ltac:(lia) Hlt ltac:(lia) Hmd rep os Et) as (s & Hs & Es). right. split; [exact Hlt|]. exists s, md. tauto.
    + intros [?|Hlt] Ht; [discriminate|]. unfold touches in Ht. lia.
  - intros d md d' md' rep Hm Hm' Hre Hre' Hlt. apply Hmod in Hm as [-> Hin]. apply Hmod in Hm' as [-> Hin']. split; [reflexivity|]. destruct Hre as [(? & _)|[(_ & os & Et)|(? & _)]]; [lia| |lia]. destruct Hre' as [(? & _)|[(_ & os' & Et')|(? & _)]]; [lia| |lia].
    destruct (uses_first ms key_dim ent_dim md Hc ltac:(lia) Hlt ltac:(lia) (R md Hin) rep os Et) as (s & Hs & Es). destruct (uses_first ms key_dim ent_dim md' Hc ltac:(lia) Hlt ltac:(lia) (R md' Hin') rep os' Et') as (s' & Hs' & Es').
    destruct (Hind Hlt) as [HI _]. exact (HI rep s' s md' md Hs' Hs Es' Es Hin' Hin).
  - exists r. split; [exact Er|]. eapply good_same; [|intros x; apply iff_refl|exact Gr]. intros d md p. unfold produced_by. split.
    + intros (mds & prods & m & E1 & E2 & H). pose proof E2 as E2'. apply Aonly in E2' as [-> ->]. rewrite Amm in E1. injection E1 as <-. exists keys2kds, keys2prods, m. split; [|tauto]. rewrite at_only. destruct (Z.leb_spec 0 key_dim), (Z.ltb_spec key_dim 4); try lia. rewrite Z.eqb_refl. reflexivity.
    + intros (mds & prods & m & E1 & E2 & H). pose proof E2 as E2'. apply Aonly in E2' as [-> ->]. rewrite at_only in E1. destruct (_ && _) in E1; [|discriminate]. injection E1 as <-. exists keys2kds, keys2prods, m. tauto.
Qed.
