(** Proofs for C84. *)
From Coq Require Import Lia Permutation.
From Verif Require Import Prelude M_Array M_Par M_Scan S_Scan M_Sort M_Map S_Map S_Fan P_Array P_Scan P_Map P_Map2 P_Fan M_Graph S_Graph P_Graph P_Graph2 M_Mark M_Cavs S_Cavs.
Local Open Scope Z_scope.

Lemma list_set_mid {A} (X : list A) b Y v : list_set (X ++ b :: Y) (length X) v = X ++ v :: Y.
Proof. induction X as [|x X IH]; [reflexivity|]. cbn. f_equal. exact IH. Qed.
Lemma zset_mid {A} (X : list A) b Y v i : i = zlen X -> zset (X ++ b :: Y) i v = Ok (X ++ v :: Y).
Proof.
  intros ->. apply zset_ok. split.
  - rewrite zlen_app, zlen_cons. pose proof (zlen_nonneg X). pose proof (zlen_nonneg Y). lia.
  - unfold zlen. rewrite Nat2Z.id, list_set_mid. reflexivity.
Qed.

Section S.
Variables oc nc : list Z.
Set Default Proof Using "All".
Definition co (x : Z) : Z := match zget oc x with Ok c => c | _ => 0 end.
Definition cn (x : Z) : Z := match zget nc x with Ok c => c | _ => 0 end.

Lemma co_ok x : 0 <= x < zlen oc -> zget oc x = Ok (co x).
Proof. intros H. destruct (zget_in_range oc x H) as (c & E). unfold co. rewrite E. reflexivity. Qed.
Lemma cn_ok x : 0 <= x < zlen nc -> zget nc x = Ok (cn x).
Proof. intros H. destruct (zget_in_range nc x H) as (c & E). unfold cn. rewrite E. reflexivity. Qed.

Lemma mark_run {A} (colors : list Z) (f : Z -> Z) (color : Z) (put : Z -> A) : forall xs offs SA SC X B Y,
  zlen SA = zlen X -> length B = length xs -> (forall x, In x xs -> zget colors x = Ok (f x)) ->
  mark_color (mk_graph offs (SA ++ xs ++ SC)) colors color put (zlen SA) (zlen SA + zlen xs) (X ++ B ++ Y) = Ok (X ++ map (fun x => put (mark (f x =? color))) xs ++ Y).
Proof.
  induction xs as [|x xs IH]; intros offs SA SC X B Y HS HB HC; unfold mark_color in *.
  - destruct B; [|discriminate]. rewrite zfromto_nil by (rewrite zlen_nil; lia). reflexivity.
  - destruct B as [|b B]; [discriminate|]. pose proof (zlen_nonneg xs). rewrite zfromto_cons by (rewrite zlen_cons; lia). cbn [foldM ab2b].
    assert (G : zget (SA ++ (x :: xs) ++ SC) (zlen SA) = Ok x) by (rewrite zget_app_r by lia; rewrite Z.sub_diag; reflexivity).
    rewrite G. cbn [bind]. rewrite (HC x (or_introl eq_refl)). cbn [bind]. cbn [app]. rewrite zset_mid by exact HS. cbn [bind map].
    specialize (IH offs (SA ++ [x]) SC (X ++ [put (mark (f x =? color))]) B Y). cbn [ab2b] in IH. rewrite <- !app_assoc in IH. cbn [app] in IH.
    rewrite !zlen_app in IH. change (zlen [x]) with 1 in IH. rewrite zlen_cons. replace (zlen SA + (1 + zlen xs)) with (zlen SA + 1 + zlen xs) by lia.
    replace (zlen SA + (zlen xs + 1)) with (zlen SA + 1 + zlen xs) by lia.
    rewrite IH; [reflexivity| |injection HB as HB; exact HB|intros; apply HC; right; assumption]. rewrite HS. reflexivity.
Qed.

Local Notation pair := (list Z * list Z)%type.
Definition om (p : pair) : list Z := match fst p with [] => [] | o :: _ => map (fun x => mark (co x =? co o)) (fst p) end.
Definition nm (p : pair) : list Z := match fst p with [] => repeat 1 (length (snd p)) | o :: _ => map (fun x => mark (cn x =? co o)) (snd p) end.
Definition of_pairs (l : list pair) : cavs := mk_cavs (of_lists (map fst l)) (of_lists (map snd l)).
Definition fits (p : pair) : Prop := (forall x, In x (fst p) -> 0 <= x < zlen oc) /\ (forall x, In x (snd p) -> 0 <= x < zlen nc) /\ zlen (fst p) <= 127 /\ zlen (snd p) <= 127.

Lemma om_len p : length (om p) = length (fst p).
Proof. unfold om. destruct (fst p); [reflexivity|]. apply map_length. Qed.
Lemma nm_len p : length (nm p) = length (snd p).
Proof. unfold nm. destruct (fst p); [apply repeat_length|apply map_length]. Qed.
Lemma concat_len {X Y} (f : X -> list Y) (g : X -> list Z) l : (forall p, length (f p) = length (g p)) -> zlen (concat (map f l)) = zlen (concat (map g l)).
Proof. intros H. induction l as [|p l IH]; [reflexivity|]. cbn [map concat]. rewrite !zlen_app, IH. unfold zlen at 1 3. rewrite H. reflexivity. Qed.

Lemma kernel_run all : (forall p, In p all -> fits p) -> forall R P, all = P ++ R ->
  foldM (color_key (of_pairs all) oc nc) (zfromto (zlen P) (zlen P + zlen R))
    (map Some (concat (map om P)) ++ repeat None (length (concat (map fst R))), concat (map nm P) ++ repeat 1 (length (concat (map snd R)))) =
  Ok (map Some (concat (map om all)), concat (map nm all)).
Proof.
  intros HF. induction R as [|p R IH]; intros P HA.
  - rewrite zfromto_nil by (rewrite zlen_nil; lia). rewrite app_nil_r in HA. subst all. cbn. rewrite !app_nil_r. reflexivity.
  - pose proof (zlen_nonneg R). rewrite zfromto_cons by (rewrite zlen_cons; lia). cbn [foldM].
    assert (E : color_key (of_pairs all) oc nc (map Some (concat (map om P)) ++ repeat None (length (concat (map fst (p :: R)))), concat (map nm P) ++ repeat 1 (length (concat (map snd (p :: R))))) (zlen P) =
      Ok (map Some (concat (map om (P ++ [p]))) ++ repeat None (length (concat (map fst R))), concat (map nm (P ++ [p])) ++ repeat 1 (length (concat (map snd R))))).
    { destruct (HF p) as (F1 & F2 & _); [rewrite HA; apply in_elt|].
      assert (A1 : map fst all = map fst P ++ fst p :: map fst R) by (rewrite HA, map_app; reflexivity).
      assert (A2 : map snd all = map snd P ++ snd p :: map snd R) by (rewrite HA, map_app; reflexivity).
      unfold color_key. cbn [of_pairs keys2old keys2new of_lists a2ab ab2b]. unfold of_lists. cbn [a2ab ab2b]. rewrite A1, A2.
      destruct (offs_at (map fst P) (fst p) (map fst R)) as [H1 H2]. rewrite zlen_map in H1, H2. rewrite H1, H2. cbn [bind].
      destruct (offs_at (map snd P) (snd p) (map snd R)) as [H3 H4]. rewrite zlen_map in H3, H4. rewrite H3, H4.
      cbn [map concat]. rewrite !app_length, !repeat_app, !map_app, !concat_app. cbn [map concat]. rewrite !app_nil_r.
      destruct (fst p) as [|o os] eqn:Ep.
      - assert (Eo : om p = []) by (unfold om; rewrite Ep; reflexivity). assert (En : nm p = repeat 1 (length (snd p))) by (unfold nm; rewrite Ep; reflexivity).
        rewrite zlen_nil, Z.add_0_r, Z.eqb_refl, Eo, En. cbn [length repeat app map]. rewrite app_nil_r, <- app_assoc. reflexivity.
      - destruct (Z.eqb_spec (zlen (concat (map fst P))) (zlen (concat (map fst P)) + zlen (o :: os))) as [Q|_]; [rewrite zlen_cons in Q; pose proof (zlen_nonneg os); lia|].
        rewrite zget_app_r by lia. rewrite Z.sub_diag. change (zget (((o :: os) ++ concat (map fst R))) 0) with (Ok o). cbn [bind].
        rewrite (co_ok o) by (apply F1; left; reflexivity). cbn [bind fst snd].
        rewrite (mark_run oc co (co o) Some (o :: os) _ _ _ (map Some (concat (map om P)))).
        + cbn [bind]. rewrite (mark_run nc cn (co o) (fun x => x) (snd p) _ _ _ (concat (map nm P))).
          * assert (Eo : om p = map (fun x => mark (co x =? co o)) (o :: os)) by (unfold om; rewrite Ep; reflexivity). assert (En : nm p = map (fun x => mark (cn x =? co o)) (snd p)) by (unfold nm; rewrite Ep; reflexivity).
            cbn [bind]. rewrite Eo, En. cbn [map]. rewrite ?map_app. cbn [map]. rewrite ?map_map, <- ?app_assoc. reflexivity.
          * symmetry. apply concat_len, nm_len.
          * apply repeat_length.
          * intros x Hx. apply cn_ok, F2, Hx.
        + rewrite zlen_map. symmetry. apply concat_len, om_len.
        + apply repeat_length.
        + intros x Hx. apply co_ok, F1, Hx. }
    rewrite E. cbn [bind]. specialize (IH (P ++ [p])). rewrite <- app_assoc in IH. specialize (IH HA). rewrite zlen_app in IH. change (zlen [p]) with 1 in IH.
    rewrite zlen_cons. replace (zlen P + (1 + zlen R)) with (zlen P + 1 + zlen R) by lia. replace (zlen P + (zlen R + 1)) with (zlen P + 1 + zlen R) by lia. exact IH.
Qed.
(** What one round takes and leaves of a cavity. *)
Definition taken (p : pair) : pair := match fst p with [] => p | o :: _ => (filter (fun x => co x =? co o) (fst p), filter (fun x => cn x =? co o) (snd p)) end.
Definition left_over (p : pair) : pair := match fst p with [] => ([], []) | o :: _ => (filter (fun x => negb (co x =? co o)) (fst p), filter (fun x => negb (cn x =? co o)) (snd p)) end.

Lemma sel_filter (f : Z -> bool) l : sel (map (fun x => mark (f x)) l) l = filter f l.
Proof. induction l as [|x l IH]; [reflexivity|]. cbn [map sel filter]. destruct (f x); cbn [mark Z.eqb]; rewrite IH; reflexivity. Qed.
Lemma sel_ones l : sel (repeat 1 (length l)) l = l.
Proof. induction l as [|x l IH]; [reflexivity|]. cbn. f_equal. exact IH. Qed.
Lemma sel_zeros l : sel (repeat 0 (length l)) l = [].
Proof. induction l as [|x l IH]; [reflexivity|]. exact IH. Qed.
Lemma invert_map f (l : list Z) : invert_marks (map (fun x => mark (f x)) l) = map (fun x => mark (negb (f x))) l.
Proof. unfold invert_marks. rewrite map_map. apply map_ext. intros x. destruct (f x); reflexivity. Qed.
Lemma invert_ones n : invert_marks (repeat 1 n) = repeat 0 n.
Proof. induction n; [reflexivity|]. cbn. f_equal. exact IHn. Qed.

Lemma sel_om p : sel (om p) (fst p) = fst (taken p).
Proof. unfold om, taken. destruct (fst p) eqn:E; [rewrite E; reflexivity|]. cbn [fst]. apply sel_filter. Qed.
Lemma sel_nm p : sel (nm p) (snd p) = snd (taken p).
Proof. unfold nm, taken. destruct (fst p) eqn:E; [apply sel_ones|]. cbn [snd]. apply sel_filter. Qed.
Lemma sel_iom p : sel (invert_marks (om p)) (fst p) = fst (left_over p).
Proof. unfold om, left_over. destruct (fst p) eqn:E; [reflexivity|]. rewrite invert_map. cbn [fst]. apply sel_filter. Qed.
Lemma sel_inm p : sel (invert_marks (nm p)) (snd p) = snd (left_over p).
Proof. unfold nm, left_over. destruct (fst p) eqn:E; [rewrite invert_ones; apply sel_zeros|]. rewrite invert_map. cbn [snd]. apply sel_filter. Qed.

Lemma zipsel_map (k l : pair -> list Z) ps : zipsel (map k ps) (map l ps) = map (fun p => sel (k p) (l p)) ps.
Proof. induction ps as [|p ps IH]; [reflexivity|]. cbn. f_equal. exact IH. Qed.
Lemma lens_map (k l : pair -> list Z) ps : (forall p, length (k p) = length (l p)) -> map zlen (map k ps) = map zlen (map l ps).
Proof. intros H. rewrite !map_map. apply map_ext. intros p. unfold zlen. rewrite H. reflexivity. Qed.

Lemma bits_le (k : list Z) : (forall m, In m k -> m = 0 \/ m = 1) -> zsum k <= zlen k.
Proof. induction k as [|m k IH]; intros H; [reflexivity|]. change (zsum (m :: k)) with (m + zsum k). rewrite zlen_cons. specialize (IH (fun x Hx => H x (or_intror Hx))). destruct (H m (or_introl eq_refl)); lia. Qed.
Lemma om_bits p m : In m (om p) -> m = 0 \/ m = 1.
Proof. unfold om. destruct (fst p); [intros []|]. intros H. apply in_map_iff in H as (x & <- & _). destruct (_ =? _); cbn; auto. Qed.
Lemma nm_bits p m : In m (nm p) -> m = 0 \/ m = 1.
Proof. unfold nm. destruct (fst p); intros H; [right; exact (repeat_spec _ _ _ H)|]. apply in_map_iff in H as (x & <- & _). destruct (_ =? _); cbn; auto. Qed.
Lemma inv_bits k m : In m (invert_marks k) -> m = 0 \/ m = 1.
Proof. intros H. apply in_map_iff in H as (x & <- & _). destruct (_ =? _); auto. Qed.
Lemma inv_concat (k : pair -> list Z) ps : invert_marks (concat (map k ps)) = concat (map (fun p => invert_marks (k p)) ps).
Proof. unfold invert_marks. rewrite concat_map, map_map. reflexivity. Qed.

Lemma filter_pairs (k l : pair -> list Z) ps : (forall p, length (k p) = length (l p)) -> (forall p m, In m (k p) -> m = 0 \/ m = 1) -> (forall p, In p ps -> zlen (l p) <= 127) ->
  filter_graph_edges (of_lists (map l ps)) (concat (map k ps)) = Ok (of_lists (map (fun p => sel (k p) (l p)) ps)).
Proof.
  intros HL HB HS. rewrite filter_lists; [rewrite zipsel_map; reflexivity|apply lens_map, HL| |].
  - intros m Hm. apply in_concat in Hm as (q & Hq & Hm). apply in_map_iff in Hq as (p & <- & _). exact (HB p m Hm).
  - intros q Hq. apply in_map_iff in Hq as (p & <- & Hp). pose proof (bits_le (k p) (HB p)) as B. specialize (HS p Hp). unfold zlen in *. rewrite HL in B. lia.
Qed.

Lemma filter_both (f : Z -> bool) l : zlen (filter (fun x => negb (f x)) l) + zlen (filter f l) = zlen l.
Proof. induction l as [|x l IH]; [reflexivity|]. cbn [filter]. destruct (f x); cbn [negb]; rewrite !zlen_cons; lia. Qed.
Lemma both_old p : zlen (fst (left_over p)) + zlen (fst (taken p)) = zlen (fst p).
Proof. unfold left_over, taken. destruct (fst p) eqn:E; [rewrite E; reflexivity|]. cbn [fst]. apply filter_both. Qed.
Lemma both_new p : zlen (snd (left_over p)) + zlen (snd (taken p)) = zlen (snd p).
Proof. unfold left_over, taken. destruct (fst p) eqn:E; [reflexivity|]. cbn [snd]. apply filter_both. Qed.
Lemma both_all (a b c : pair -> list Z) ps : (forall p, zlen (a p) + zlen (b p) = zlen (c p)) -> zlen (concat (map a ps)) + zlen (concat (map b ps)) = zlen (concat (map c ps)).
Proof. intros H. induction ps as [|p ps IH]; [reflexivity|]. cbn [map concat]. rewrite !zlen_app. specialize (H p). lia. Qed.

Lemma once_ok ps : (forall p, In p ps -> fits p) -> separate_by_color_once (of_pairs ps) oc nc = Ok (of_pairs (map taken ps), of_pairs (map left_over ps)).
Proof.
  intros HF. unfold separate_by_color_once. cbn [of_pairs keys2old keys2new]. rewrite !nnodes_of_lists, !zlen_map, Z.eqb_refl. cbn [check bind]. unfold nedges. cbn [of_lists ab2b].
  unfold blank, filled. destruct (Z.ltb_spec (zlen (concat (map fst ps))) 0) as [Q|_]; [pose proof (zlen_nonneg (concat (map fst ps))); lia|].
  destruct (Z.ltb_spec (zlen (concat (map snd ps))) 0) as [Q|_]; [pose proof (zlen_nonneg (concat (map snd ps))); lia|]. cbn [bind].
  pose proof (kernel_run ps HF ps [] eq_refl) as K. unfold zlen at 1 2 in K. cbn [length map concat app] in K. change (Z.of_nat 0) with 0 in K. rewrite Z.add_0_l in K.
  assert (ZR : zfromto 0 (zlen ps) = zrange (zlen ps)) by (unfold zfromto; rewrite Z.sub_0_r; rewrite (map_ext _ (fun k => k)) by (intros; lia); apply map_id).
  rewrite ZR in K. unfold forM. unfold zlen at 2 3. rewrite !Nat2Z.id. change (mk_cavs (of_lists (map fst ps)) (of_lists (map snd ps))) with (of_pairs ps). rewrite K. cbn [bind fst snd].
  rewrite (proj2 (freeze_ok _ _) eq_refl). cbn [bind].
  rewrite !inv_concat.
  assert (S1 : forall p, In p ps -> zlen (fst p) <= 127) by (intros p Hp; apply HF, Hp). assert (S2 : forall p, In p ps -> zlen (snd p) <= 127) by (intros p Hp; apply HF, Hp).
  rewrite (filter_pairs om fst ps om_len om_bits S1), (filter_pairs nm snd ps nm_len nm_bits S2).
  rewrite (filter_pairs (fun p => invert_marks (om p)) fst ps); [|intros p; unfold invert_marks; rewrite map_length; apply om_len|intros p m Hm; exact (inv_bits _ _ Hm)|exact S1].
  rewrite (filter_pairs (fun p => invert_marks (nm p)) snd ps); [|intros p; unfold invert_marks; rewrite map_length; apply nm_len|intros p m Hm; exact (inv_bits _ _ Hm)|exact S2].
  cbn [bind].
  cbn [of_lists ab2b].
  rewrite (map_ext _ _ sel_om), (map_ext _ _ sel_nm), (map_ext _ _ sel_iom), (map_ext _ _ sel_inm).
  rewrite (both_all _ _ _ ps both_old), (both_all _ _ _ ps both_new), !Z.eqb_refl. cbn [check bind]. unfold of_pairs. rewrite !map_map. reflexivity.
Qed.

Lemma taken_left_old p x : In x (fst p) <-> In x (fst (taken p)) \/ In x (fst (left_over p)).
Proof. unfold taken, left_over. destruct (fst p) eqn:E; [rewrite E; cbn; tauto|]. cbn [fst]. rewrite !filter_In. destruct (co x =? co z); cbn; intuition congruence. Qed.
Lemma perm_filter (f : Z -> bool) l : Permutation (filter f l ++ filter (fun x => negb (f x)) l) l.
Proof.
  induction l as [|x l IH]; [constructor|]. cbn [filter]. destruct (f x); cbn [negb app]; [constructor; exact IH|].
  eapply Permutation_trans; [apply Permutation_sym, Permutation_middle|]. constructor. exact IH.
Qed.
Lemma perm_old p : Permutation (fst (taken p) ++ fst (left_over p)) (fst p).
Proof. unfold taken, left_over. destruct (fst p) eqn:E; [rewrite E; constructor|]. apply perm_filter. Qed.
Lemma perm_new p : Permutation (snd (taken p) ++ snd (left_over p)) (snd p).
Proof. unfold taken, left_over. destruct (fst p) eqn:E; [cbn; rewrite app_nil_r; reflexivity|]. apply perm_filter. Qed.

Lemma fits_left p : fits p -> fits (left_over p).
Proof.
  intros (F1 & F2 & F3 & F4). pose proof (both_old p). pose proof (both_new p). pose proof (zlen_nonneg (fst (taken p))). pose proof (zlen_nonneg (snd (taken p))).
  split; [|split; [|lia]]; intros x Hx; [apply F1|apply F2].
  - apply (Permutation_in x (perm_old p)), in_or_app. right. exact Hx.
  - apply (Permutation_in x (perm_new p)), in_or_app. right. exact Hx.
Qed.

Lemma left_color_old p o x : fits p -> In o (fst (taken p)) -> In x (fst (left_over p)) -> zget oc x <> zget oc o.
Proof.
  intros (F1 & F2 & _). unfold taken, left_over. destruct (fst p) as [|o0 os] eqn:E; [rewrite E; intros []|]. cbn [fst]. intros Ho Hx. apply filter_In in Ho as [Ho1 Ho2]. apply filter_In in Hx as [Hx1 Hx2].
  rewrite (co_ok o), (co_ok x) by (apply F1; assumption). intros Q. injection Q as Q. rewrite Q, Ho2 in Hx2. discriminate.
Qed.
Lemma left_color_new p o x : fits p -> In o (fst (taken p)) -> In x (snd (left_over p)) -> zget nc x <> zget oc o.
Proof.
  intros (F1 & F2 & _). unfold taken, left_over. destruct (fst p) as [|o0 os] eqn:E; [rewrite E; intros []|]. cbn [fst snd]. intros Ho Hx. apply filter_In in Ho as [Ho1 Ho2]. apply filter_In in Hx as [Hx1 Hx2].
  rewrite (co_ok o), (cn_ok x) by (apply F1 || apply F2; assumption). intros Q. injection Q as Q. rewrite Q, Ho2 in Hx2. discriminate.
Qed.
Lemma left_color_rev p o x : fits p -> In o (fst (left_over p)) -> In x (snd (taken p)) -> zget nc x <> zget oc o.
Proof.
  intros (F1 & F2 & _). unfold taken, left_over. destruct (fst p) as [|o0 os] eqn:E; [intros []|]. cbn [fst snd]. intros Ho Hx. apply filter_In in Ho as [Ho1 Ho2]. apply filter_In in Hx as [Hx1 Hx2].
  rewrite (co_ok o), (cn_ok x) by (apply F1 || apply F2; assumption). intros Q. injection Q as Q. rewrite <- Q, Hx2 in Ho2. discriminate.
Qed.
Lemma taken_color_old p o x : fits p -> In o (fst (taken p)) -> In x (fst (taken p)) -> zget oc x = zget oc o.
Proof.
  intros (F1 & F2 & _). unfold taken. destruct (fst p) as [|o0 os] eqn:E; [rewrite E; intros []|]. cbn [fst]. intros Ho Hx. apply filter_In in Ho as [Ho1 Ho2]. apply filter_In in Hx as [Hx1 Hx2].
  rewrite (co_ok o), (co_ok x) by (apply F1; assumption). f_equal. lia.
Qed.
Lemma taken_color_new p o x : fits p -> In o (fst (taken p)) -> In x (snd (taken p)) -> zget nc x = zget oc o.
Proof.
  intros (F1 & F2 & _). unfold taken. destruct (fst p) as [|o0 os] eqn:E; [rewrite E; intros []|]. cbn [fst snd]. intros Ho Hx. apply filter_In in Ho as [Ho1 Ho2]. apply filter_In in Hx as [Hx1 Hx2].
  rewrite (co_ok o), (cn_ok x) by (apply F1 || apply F2; assumption). f_equal. lia.
Qed.
Lemma taken_none p : fst (taken p) = [] -> left_over p = ([], []).
Proof. unfold taken, left_over. destruct (fst p) as [|o os] eqn:E; [reflexivity|]. cbn [fst filter]. rewrite Z.eqb_refl. discriminate. Qed.

Lemma in_parts_old olds news parts p x : separates oc nc olds news parts -> In p parts -> In x (fst p) -> In x olds.
Proof. intros S Hp Hx. apply (Permutation_in x (sep_old _ _ _ _ _ S)). apply in_concat. exists (fst p). split; [apply in_map; exact Hp|exact Hx]. Qed.
Lemma in_parts_new olds news parts p x : separates oc nc olds news parts -> In p parts -> In x (snd p) -> In x news.
Proof. intros S Hp Hx. apply (Permutation_in x (sep_new _ _ _ _ _ S)). apply in_concat. exists (snd p). split; [apply in_map; exact Hp|exact Hx]. Qed.

Lemma separates_cons p parts : fits p -> separates oc nc (fst (left_over p)) (snd (left_over p)) parts -> separates oc nc (fst p) (snd p) (taken p :: parts).
Proof.
  intros F S. constructor.
  - cbn [map concat]. eapply Permutation_trans; [apply Permutation_app_head, (sep_old _ _ _ _ _ S)|]. apply perm_old.
  - cbn [map concat]. eapply Permutation_trans; [apply Permutation_app_head, (sep_new _ _ _ _ _ S)|]. apply perm_new.
  - intros q o x [<-|Hq] Ho Hx; [exact (taken_color_old p o x F Ho Hx)|exact (sep_one_old _ _ _ _ _ S q o x Hq Ho Hx)].
  - intros q o x [<-|Hq] Ho Hx; [exact (taken_color_new p o x F Ho Hx)|exact (sep_one_new _ _ _ _ _ S q o x Hq Ho Hx)].
  - intros i j q r o x Hi Hj Ho Hx Hc. destruct i as [|i], j as [|j]; cbn [nth_error] in Hi, Hj; [reflexivity| | |f_equal; exact (sep_same_old _ _ _ _ _ S i j q r o x Hi Hj Ho Hx Hc)]; exfalso.
    + injection Hi as <-. apply nth_error_In in Hj. exact (left_color_old p o x F Ho (in_parts_old _ _ _ _ _ S Hj Hx) Hc).
    + injection Hj as <-. apply nth_error_In in Hi. exact (left_color_old p x o F Hx (in_parts_old _ _ _ _ _ S Hi Ho) (eq_sym Hc)).
  - intros i j q r o x Hi Hj Ho Hx Hc. destruct i as [|i], j as [|j]; cbn [nth_error] in Hi, Hj; [reflexivity| | |f_equal; exact (sep_same_new _ _ _ _ _ S i j q r o x Hi Hj Ho Hx Hc)]; exfalso.
    + injection Hi as <-. apply nth_error_In in Hj. exact (left_color_new p o x F Ho (in_parts_new _ _ _ _ _ S Hj Hx) Hc).
    + injection Hj as <-. apply nth_error_In in Hi. exact (left_color_rev p o x F (in_parts_old _ _ _ _ _ S Hi Ho) Hx Hc).
  - assert (N : fst (taken p) = [] -> forall q, In q parts -> snd q = []).
    { intros H q Hq. apply taken_none in H. destruct (snd q) as [|x xs] eqn:E; [reflexivity|]. exfalso.
      assert (In x (snd (left_over p))) as K by (apply (in_parts_new _ _ _ q x S Hq); rewrite E; left; reflexivity). rewrite H in K. destruct K. }
    intros i j q r Hi Hj Q1 Q2 R1 R2. destruct i as [|i], j as [|j]; cbn [nth_error] in Hi, Hj; [reflexivity| | |f_equal; exact (sep_rest _ _ _ _ _ S i j q r Hi Hj Q1 Q2 R1 R2)]; exfalso.
    + injection Hi as <-. apply nth_error_In in Hj. exact (R2 (N Q1 r Hj)).
    + injection Hj as <-. apply nth_error_In in Hi. exact (Q2 (N R1 q Hi)).
Qed.

Lemma separates_nil : separates oc nc [] [] [].
Proof. constructor; try (intros; contradiction); try constructor; intros [|i] j p q; discriminate. Qed.

Lemma zlen_zero {A} (l : list A) : zlen l = 0 -> l = [].
Proof. destruct l; [reflexivity|]. rewrite zlen_cons. pose proof (zlen_nonneg l). lia. Qed.

Lemma shrink_one p : zlen (fst p) + zlen (snd p) <> 0 -> zlen (fst (left_over p)) + zlen (snd (left_over p)) < zlen (fst p) + zlen (snd p).
Proof.
  intros H. pose proof (both_old p). pose proof (both_new p). pose proof (zlen_nonneg (fst (taken p))). pose proof (zlen_nonneg (snd (taken p))).
  destruct (fst (taken p)) as [|o os] eqn:E.
  - apply taken_none in E. rewrite E in *. cbn [fst snd] in *. rewrite !zlen_nil in *. pose proof (zlen_nonneg (fst p)). pose proof (zlen_nonneg (snd p)). lia.
  - rewrite zlen_cons in *. pose proof (zlen_nonneg os). lia.
Qed.
Lemma shrink_le p : zlen (fst (left_over p)) + zlen (snd (left_over p)) <= zlen (fst p) + zlen (snd p).
Proof. pose proof (both_old p). pose proof (both_new p). pose proof (zlen_nonneg (fst (taken p))). pose proof (zlen_nonneg (snd (taken p))). lia. Qed.
Definition size (ps : list pair) : Z := zlen (concat (map fst ps)) + zlen (concat (map snd ps)).
Lemma size_cons p ps : size (p :: ps) = zlen (fst p) + zlen (snd p) + size ps.
Proof. unfold size. cbn [map concat]. rewrite !zlen_app. lia. Qed.
Lemma size_nonneg ps : 0 <= size ps.
Proof. unfold size. pose proof (zlen_nonneg (concat (map fst ps))). pose proof (zlen_nonneg (concat (map snd ps))). lia. Qed.
Lemma shrink_all_le ps : size (map left_over ps) <= size ps.
Proof. induction ps as [|p ps IH]; [reflexivity|]. cbn [map]. rewrite !size_cons. pose proof (shrink_le p). lia. Qed.
Lemma shrink_all ps : size ps <> 0 -> size (map left_over ps) < size ps.
Proof.
  induction ps as [|p ps IH]; intros H; [exfalso; apply H; reflexivity|]. cbn [map]. rewrite !size_cons in *. pose proof (shrink_le p). pose proof (shrink_all_le ps).
  destruct (Z.eq_dec (zlen (fst p) + zlen (snd p)) 0) as [E|E]; [|pose proof (shrink_one p E); lia]. specialize (IH ltac:(lia)). lia.
Qed.

Lemma separate_ok : forall fuel ps, (forall p, In p ps -> fits p) -> (Z.to_nat (size ps) < fuel)%nat ->
  exists rounds, separate_by_color fuel (of_pairs ps) oc nc = Ok (Some rounds) /\
  forall v p, zget ps v = Ok p -> exists parts, Forall2 (has v) rounds parts /\ separates oc nc (fst p) (snd p) parts.
Proof.
  induction fuel as [|fuel IH]; intros ps HF Hf; [lia|]. cbn [separate_by_color of_pairs keys2old keys2new]. unfold nedges. cbn [of_lists ab2b].
  pose proof (zlen_nonneg (concat (map fst ps))) as Z1. pose proof (zlen_nonneg (concat (map snd ps))) as Z2.
  destruct (Z.eqb_spec (zlen (concat (map fst ps))) 0) as [E1|E1]; cbn [andb].
  1: destruct (Z.eqb_spec (zlen (concat (map snd ps))) 0) as [E2|E2].
  { exists []. split; [reflexivity|]. intros v p Hp. exists []. split; [constructor|]. apply zget_In in Hp. apply zlen_zero in E1. apply zlen_zero in E2.
    assert (fst p = []). { destruct (fst p) as [|x xs] eqn:E; [reflexivity|]. exfalso. assert (K : In x (concat (map fst ps))) by (apply in_concat; exists (fst p); split; [apply in_map, Hp|rewrite E; left; reflexivity]). rewrite E1 in K. destruct K. }
    assert (snd p = []). { destruct (snd p) as [|x xs] eqn:E; [reflexivity|]. exfalso. assert (K : In x (concat (map snd ps))) by (apply in_concat; exists (snd p); split; [apply in_map, Hp|rewrite E; left; reflexivity]). rewrite E2 in K. destruct K. }
    rewrite H, H0. exact separates_nil. }
  all: change (mk_cavs (of_lists (map fst ps)) (of_lists (map snd ps))) with (of_pairs ps); rewrite (once_ok ps HF); cbn [bind fst snd];
    (destruct (IH (map left_over ps)) as (rounds & E & G);
      [intros q Hq; apply in_map_iff in Hq as (p & <- & Hp); apply fits_left, HF, Hp
      |pose proof (shrink_all ps) as SH; unfold size in SH at 1; specialize (SH ltac:(lia)); pose proof (size_nonneg (map left_over ps)); lia
      |]);
    rewrite E; cbn [bind]; exists (of_pairs (map taken ps) :: rounds); split; [reflexivity|]; intros v p Hp;
    (destruct (G v (left_over p)) as (parts & G1 & G2); [rewrite zget_map, Hp; reflexivity|]);
    exists (taken p :: parts); split;
    [constructor; [|exact G1]; split; cbn [of_pairs keys2old keys2new]; apply targets_of_lists; rewrite map_map, zget_map, Hp; reflexivity
    |apply separates_cons; [apply HF; exact (zget_In _ _ _ Hp)|exact G2]].
Qed.

Lemma cavs_pairs c : cavs_ok c oc nc -> exists ps, c = of_pairs ps /\ (forall p, In p ps -> fits p) /\ zlen ps = nnodes (keys2old c).
Proof.
  intros H. destruct c as [go gn]. destruct (wf_lists go (ok_old _ _ _ H)) as (Lo & Eo). destruct (wf_lists gn (ok_new _ _ _ H)) as (Ln & En). cbn [keys2old keys2new] in Eo, En. 
  pose proof (ok_keys _ _ _ H) as K. cbn [keys2old keys2new] in K |- *. rewrite Eo, En, !nnodes_of_lists in K.
  assert (L : length Lo = length Ln) by (unfold zlen in K; lia).
  assert (M1 : map fst (combine Lo Ln) = Lo). { clear - L. revert Ln L. induction Lo as [|x Lo IH]; intros [|y Ln] L; try discriminate; [reflexivity|]. cbn. f_equal. apply IH. cbn in L. injection L as L. exact L. }
  assert (M2 : map snd (combine Lo Ln) = Ln). { clear - L. revert Ln L. induction Lo as [|x Lo IH]; intros [|y Ln] L; try discriminate; [reflexivity|]. cbn. f_equal. apply IH. cbn in L. injection L as L. exact L. }
  exists (combine Lo Ln). split; [unfold of_pairs; rewrite M1, M2, Eo, En; reflexivity|]. split.
  - intros p Hp. assert (P1 : In (fst p) Lo) by (rewrite <- M1; apply in_map, Hp). assert (P2 : In (snd p) Ln) by (rewrite <- M2; apply in_map, Hp).
    split; [|split; [|split]].
    + intros x Hx. apply (ok_old_colors _ _ _ H). cbn [keys2old]. rewrite Eo. cbn [of_lists ab2b]. apply in_concat. eauto.
    + intros x Hx. apply (ok_new_colors _ _ _ H). cbn [keys2new]. rewrite En. cbn [of_lists ab2b]. apply in_concat. eauto.
    + apply In_nth_error in P1 as (i & Hi). apply (ok_old_size _ _ _ H (Z.of_nat i)). cbn [keys2old]. rewrite Eo. apply targets_of_lists, zget_nat, Hi.
    + apply In_nth_error in P2 as (i & Hi). apply (ok_new_size _ _ _ H (Z.of_nat i)). cbn [keys2new]. rewrite En. apply targets_of_lists, zget_nat, Hi.
  - rewrite Eo, nnodes_of_lists. rewrite <- (zlen_map fst), M1. reflexivity.
Qed.
End S.

Lemma separating_w : forall c oc nc fuel, cavs_ok c oc nc -> (Z.to_nat (nedges (keys2old c) + nedges (keys2new c)) < fuel)%nat ->
  exists rounds, separate_by_color fuel c oc nc = Ok (Some rounds) /\
  forall key olds news, targets (keys2old c) key = Ok olds -> targets (keys2new c) key = Ok news ->
    exists parts, Forall2 (has key) rounds parts /\ separates oc nc olds news parts.
Proof.
  intros c oc nc fuel H Hf. destruct (cavs_pairs oc nc c H) as (ps & E & F & L). destruct (separate_ok oc nc fuel ps F) as (rounds & R & G).
  { rewrite E in Hf. exact Hf. }
  exists rounds. split; [rewrite E; exact R|]. intros key olds news Ho Hn.
  assert (B : 0 <= key < zlen ps).
  { rewrite L. unfold targets in Ho. apply bind_ok in Ho as (lo & E1 & Ho). apply bind_ok in Ho as (hi & E2 & _). apply zget_bounds in E1. apply zget_bounds in E2. unfold nnodes. lia. }
  destruct (zget_in_range ps key B) as (p & Hp). destruct (G key p Hp) as (parts & G1 & G2). exists parts. split; [exact G1|].
  rewrite E in Ho, Hn. cbn [of_pairs keys2old keys2new] in Ho, Hn. rewrite (targets_of_lists _ key (fst p)) in Ho by (rewrite zget_map, Hp; reflexivity). rewrite (targets_of_lists _ key (snd p)) in Hn by (rewrite zget_map, Hp; reflexivity).
  injection Ho as <-. injection Hn as <-. exact G2.
Qed.
