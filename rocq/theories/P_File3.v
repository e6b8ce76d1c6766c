(** Writing and reading the parts of a mesh. *)
From Verif Require Import Prelude M_Sort M_Template M_Adj M_Parents M_Tags M_File S_File P_File P_File2.
Local Open Scope Z_scope.

(** arrays indexed by dimension, filled up to some dimension *)
Definition partial {A} (l : list A) (j : nat) (dflt : A) : list A := firstn j l ++ repeat dflt (length l - j).
Lemma partial_length {A} (l : list A) j dflt : length (partial l j dflt) = length l.
Proof. unfold partial. rewrite app_length, firstn_length, repeat_length. lia. Qed.
Lemma partial_set {A} (l : list A) j x dflt : nth_error l j = Some x -> list_set (partial l j dflt) j x = partial l (S j) dflt.
Proof.
  revert j. induction l as [|y l IH]; intros [|j] H; cbn in H; try discriminate.
  - injection H as ->. unfold partial. cbn. rewrite Nat.sub_0_r. reflexivity.
  - unfold partial in *. cbn [firstn length Nat.sub app list_set]. f_equal. apply IH, H.
Qed.
Lemma partial_nth {A} (l : list A) j i x dflt : (i < j)%nat -> nth_error l i = Some x -> nth_error (partial l j dflt) i = Some x.
Proof.
  intros Hi E. unfold partial. rewrite nth_error_app1; [rewrite nth_error_firstn_lt by exact Hi; exact E|]. rewrite firstn_length. apply Nat.min_glb_lt; [exact Hi|]. apply nth_error_Some. congruence.
Qed.
Lemma partial_nth_next {A} (l : list A) j i dflt : (j <= i < length l)%nat -> nth_error (partial l j dflt) i = Some dflt.
Proof.
  intros H. unfold partial. rewrite nth_error_app2; rewrite firstn_length, Nat.min_l by lia; [|lia]. apply nth_error_repeat. lia.
Qed.
Lemma partial_0 {A} (l : list A) dflt : partial l 0 dflt = repeat dflt (length l).
Proof. unfold partial. cbn. rewrite Nat.sub_0_r. reflexivity. Qed.
Lemma partial_all {A} (l : list A) j dflt : (j <= length l)%nat -> (forall i, (j <= i < length l)%nat -> nth_error l i = Some dflt) -> partial l j dflt = l.
Proof.
  intros Hj H. apply list_eq_nth. intros i. destruct (Nat.lt_ge_cases i j) as [L|L].
  - destruct (nth_error l i) as [x|] eqn:E; [apply partial_nth; assumption|]. apply nth_error_None in E. lia.
  - destruct (Nat.lt_ge_cases i (length l)) as [L'|L']; [rewrite (H i) by lia; apply partial_nth_next; lia|].
    rewrite (proj2 (nth_error_None _ _)) by (rewrite partial_length; lia). symmetry. apply nth_error_None. lia.
Qed.
Lemma zget_of {A} (l : list A) d x : 0 <= d -> nth_error l (Z.to_nat d) = Some x -> zget l d = Ok x.
Proof. intros H E. unfold zget. destruct (Z.ltb_spec d 0); [lia|]. rewrite E. reflexivity. Qed.
Lemma zset_of {A} (l : list A) d x : 0 <= d < zlen l -> zset l d x = Ok (list_set l (Z.to_nat d) x).
Proof. intros H. unfold zset. destruct (Z.leb_spec 0 d); [|lia]. destruct (Z.ltb_spec d (zlen l)); [|lia]. reflexivity. Qed.
Lemma nth_of {A} (l : list A) d dflt : (Z.to_nat d < length l)%nat -> nth_error l (Z.to_nat d) = Some (nth (Z.to_nat d) l dflt).
Proof. intros H. apply nth_error_nth'. exact H. Qed.
Lemma fromto_at lo hi pre x post : zfromto lo hi = pre ++ x :: post -> x = lo + zlen pre /\ lo <= x < hi.
Proof.
  intros E. assert (zget (zfromto lo hi) (zlen pre) = Ok x) as G. { rewrite E, zget_app_r by lia. rewrite Z.sub_diag. reflexivity. }
  assert (In x (zfromto lo hi)) as I by (rewrite E; apply in_elt). apply in_zfromto in I. split; [|exact I].
  unfold zfromto in G. rewrite zget_map in G. apply bind_ok in G as (y & Ey & G). injection G as <-. pose proof (zget_bounds _ _ _ Ey) as B. rewrite zlen_zrange in B by lia. rewrite zget_zrange in Ey by lia. injection Ey as <-. reflexivity.
Qed.
Lemma concat_flat {A B} (f : A -> list B) l : concat (map f l) = flat_map f l.
Proof. symmetry. apply flat_map_concat_map. Qed.

Ltac step := match goal with |- meets ?k (rbind (lift (Ok ?v)) ?f) ?b0 ?b1 ?w ?Q => change (meets k (f v) b0 b1 w Q); cbv beta end.
Ltac pad := match goal with |- meets _ _ ?b _ _ _ => rewrite <- (app_nil_r b) end.

Section mesh.
Variables (z : zlib) (h : heap) (w r : machine) (m : omesh).
Hypothesis Hz : zlib_works z.
Hypothesis Hs : storable m.
Hypothesis Hk : has_zlib w = true -> has_zlib r = true.
Notation k := (has_zlib w).
Notation dim := (o_dim m).

Definition stage (ne : list Z) (dn : list (option adj)) (tg : list (list tag)) (ow : list (option (list Z * list Z))) (se : list class_set) (pa : list (option parents)) : omesh :=
  mk_omesh (o_comm_size m) (o_comm_rank m) (o_family m) (o_parting m) (o_nghost_layers m) (o_hints m) (mk_tmesh dim ne tg) dn ow se pa.
Definition nones {A} : list (option A) := [None; None; None; None].

(** meta data *)
Definition axis_bytes (a : axis) : list Z := put Real (fst (fst a)) ++ put Real (snd (fst a)) ++ put Real (snd a).
Definition meta_bytes : list Z :=
  put I8 (family_number (o_family m)) ++ put I8 dim ++ put I32 (o_comm_size m) ++ put I32 (o_comm_rank m) ++ put I8 (o_parting m) ++ put I32 (o_nghost_layers m) ++
  match o_hints m with None => put I8 0 | Some axes => put I8 1 ++ put I32 (zlen axes) ++ flat_map axis_bytes axes end.
Lemma mdim_ok : mdim (o_t m) = Ok dim.
Proof. destruct (s_dim m Hs). unfold mdim, o_dim in *. destruct (Z.leb_spec 0 (t_dim (o_t m))); [|lia]. destruct (Z.leb_spec (t_dim (o_t m)) 3); [|lia]. reflexivity. Qed.
Lemma write_meta_bytes : write_meta w m (needs_swapping w) = Ok meta_bytes.
Proof.
  pose proof (s_dim m Hs). pose proof (s_parting m Hs) as [Hp _]. unfold write_meta. rewrite mdim_ok. cbn [bind]. destruct (Z.eqb_spec (o_parting m) (-1)); [lia|]. cbn [negb check bind]. rewrite !write_value_put. unfold meta_bytes.
  rewrite (cast_in I8 (family_number _)) by (destruct (o_family m); cbn; lia). rewrite (cast_in I8 dim) by (cbn; lia). do 7 f_equal.
  destruct (o_hints m) as [axes|] eqn:E; rewrite ?write_value_put; [|reflexivity]. destruct (s_hints m Hs axes E) as [Hc _]. unfold countable in Hc. pose proof (zlen_nonneg axes). rewrite (cast_in I32) by (cbn; lia). do 2 f_equal.
  apply flat_map_ext. intros a. rewrite !write_value_put. reflexivity.
Qed.
Lemma meets_meta : meets k (read_meta r (new_omesh (o_comm_size m) (o_comm_rank m)) 9 (needs_swapping r)) meta_bytes [] (stage [-1; -1; -1; -1] nones [[]; []; []; []] nones [] nones) nothing.
Proof.
  destruct (s_comm m Hs) as [C1 C2]. destruct (s_parting m Hs) as [P1 P2]. pose proof (s_dim m Hs) as D.
  unfold read_meta, meta_bytes. change (7 <=? 9) with true. change (3 <=? 9) with true. change (9 <? 6) with false. cbv iota.
  apply meets_assoc. eapply meets_full; [apply meets_used; destruct (o_family m); cbn; lia|]. apply meets_assoc.
  assert (family_of_number (family_number (o_family m)) = Ok (o_family m)) as -> by (destruct (o_family m); reflexivity). step.
  match goal with |- meets ?k (rbind (ret ?v) ?f) ?b0 ?b1 ?w ?Q => change (meets k (f v) b0 b1 w Q); cbv beta end.
  eapply meets_full; [apply meets_used; cbn; lia|]. unfold o_set_dim. cbn [o_dim with_family o_t t_dim new_omesh]. change (-1 =? -1) with true. unfold check. destruct (Z.leb_spec 1 dim); [|lia]. destruct (Z.leb_spec dim 3); [|lia]. cbn [bind]. step.
  eapply meets_full; [apply meets_used; assumption|]. cbn [o_comm_size with_t with_family new_omesh]. rewrite Z.eqb_refl. step.
  eapply meets_full; [apply meets_used; assumption|]. cbn [o_comm_rank with_t with_family new_omesh]. rewrite Z.eqb_refl. step.
  eapply meets_full; [apply meets_used; cbn; lia|]. assert ((o_parting m =? OMEGA_H_ELEM_BASED) || (o_parting m =? OMEGA_H_GHOSTED) || (o_parting m =? OMEGA_H_VERT_BASED) = true) as ->.
  { unfold OMEGA_H_ELEM_BASED, OMEGA_H_GHOSTED, OMEGA_H_VERT_BASED. assert (o_parting m = 0 \/ o_parting m = 1 \/ o_parting m = 2) as [->|[->| ->]] by lia; reflexivity. } step.
  apply meets_assoc. eapply meets_full; [apply meets_used; assumption|].
  match goal with |- meets ?k (rbind (ret ?v) ?f) ?b0 ?b1 ?w ?Q => change (meets k (f v) b0 b1 w Q); cbv beta end.
  destruct (o_hints m) as [axes|] eqn:E.
  - destruct (s_hints m Hs axes E) as [Hc Ha]. unfold countable in Hc. pose proof (zlen_nonneg axes). eapply meets_full; [apply meets_used; cbn; lia|]. change (1 =? 0) with false. cbv iota.
    apply meets_assoc. eapply meets_full; [apply meets_used; cbn; lia|]. unfold zlen. rewrite Nat2Z.id. apply meets_assoc. pad. eapply meets_full.
    + apply (meets_read_n _ _ axes axis_bytes (fun a => a)). intros a Hin. rewrite Forall_forall in Ha. destruct (Ha a Hin) as (A1 & A2 & A3). unfold axis_bytes. eapply meets_full; [apply meets_used; exact A1|]. eapply meets_full; [apply meets_used; exact A2|]. pad. eapply meets_full; [apply meets_used; exact A3|]. destruct a as [[x y] zz]. apply meets_ok.
    + rewrite map_id. match goal with |- meets ?k (rbind (ret ?v) ?f) ?b0 ?b1 ?w ?Q => change (meets k (f v) b0 b1 w Q); cbv beta end. unfold stage. rewrite E. apply meets_ok.
  - pad. eapply meets_full; [apply meets_used; cbn; lia|]. change (0 =? 0) with true. cbv iota. match goal with |- meets ?k (rbind (ret ?v) ?f) ?b0 ?b1 ?w ?Q => change (meets k (f v) b0 b1 w Q); cbv beta end. unfold stage. rewrite E. apply meets_ok.
Qed.

(** entities *)
Definition ne (d : Z) : Z := nth (Z.to_nat d) (t_nents (o_t m)) 0.
Definition dn (d : Z) : adj := match nth (Z.to_nat d) (o_down m) None with Some a => a | None => mk_adj [] [] None end.
Lemma ne_at d : 0 <= d <= dim -> nth_error (t_nents (o_t m)) (Z.to_nat d) = Some (ne d) /\ zget (t_nents (o_t m)) d = Ok (ne d) /\ 0 <= ne d <= 2147483647.
Proof.
  intros H. pose proof (s_dim m Hs). destruct (s_four m Hs) as (F & _). assert (nth_error (t_nents (o_t m)) (Z.to_nat d) = Some (ne d)) as E by (apply nth_of; lia). split; [exact E|].
  assert (zget (t_nents (o_t m)) d = Ok (ne d)) as G by (apply zget_of; [lia|exact E]). split; [exact G|]. apply (s_nents m Hs d _ H G).
Qed.
Lemma dn_at d : 1 <= d <= dim -> nth_error (o_down m) (Z.to_nat d) = Some (Some (dn d)) /\ adj_a2ab (dn d) = [] /\ zlen (adj_ab2b (dn d)) = ne d * element_degree (o_family m) d (d - 1) /\ array_of I32 (adj_ab2b (dn d)) /\
  if d =? 1 then adj_codes (dn d) = None else exists c, adj_codes (dn d) = Some c /\ array_of I8 c.
Proof.
  intros H. pose proof (s_dim m Hs). destruct (s_four m Hs) as (_ & _ & F & _). destruct (ne_at d ltac:(lia)) as (_ & G & _).
  pose proof (nth_of (o_down m) d None ltac:(lia)) as E. destruct (s_down m Hs d _ _ H G (zget_of _ d _ ltac:(lia) E)) as (a & Ea & K). rewrite Ea in E. unfold dn. rewrite Ea. split; [exact E|]. exact K.
Qed.
Definition codes_of (d : Z) : list Z := match adj_codes (dn d) with Some c => c | None => [] end.
Definition down_head (d : Z) : list Z := if 1 <? d then (head_bytes z k I32 (adj_ab2b (dn d)) ++ data_bytes z k I32 (adj_ab2b (dn d))) ++ head_bytes z k I8 (codes_of d) else head_bytes z k I32 (adj_ab2b (dn d)).
Definition down_data (d : Z) : list Z := if 1 <? d then data_bytes z k I8 (codes_of d) else data_bytes z k I32 (adj_ab2b (dn d)).
Lemma check_dim_ok t d : t_dim t = dim -> 0 <= d <= dim -> check_dim t d = Ok tt.
Proof.
  intros E H. pose proof (s_dim m Hs). unfold check_dim, mdim. rewrite E. destruct (Z.leb_spec 0 d); [|lia]. destruct (Z.leb_spec 0 dim); [|lia]. destruct (Z.leb_spec dim 3); [|lia]. cbn [negb andb bind]. destruct (Z.leb_spec d dim); [|lia]. reflexivity.
Qed.
Lemma check_dim2_ok t d n : t_dim t = dim -> 0 <= d <= dim -> zget (t_nents t) d = Ok n -> 0 <= n -> check_dim2 t d = Ok tt.
Proof.
  intros E H G N. unfold check_dim2, has_ents. rewrite !(check_dim_ok t d E H), G. cbn [bind]. destruct (Z.leb_spec 0 n); [|lia]. reflexivity.
Qed.
Lemma nents_ok t d n : t_dim t = dim -> 0 <= d <= dim -> zget (t_nents t) d = Ok n -> 0 <= n -> nents t d = Ok n.
Proof. intros E H G N. unfold nents. rewrite (check_dim2_ok t d n) by assumption. exact G. Qed.
Lemma write_down_bytes d : 1 <= d <= dim -> write_down z w m k (needs_swapping w) d = Ok (down_head d ++ down_data d).
Proof.
  intros H. destruct (dn_at d H) as (E & E1 & E2 & E3 & E4). destruct (ne_at d ltac:(lia)) as (_ & G & N). destruct (ne_at (d - 1) ltac:(lia)) as (_ & G' & N').
  unfold write_down, o_ask_down. rewrite (check_dim2_ok _ _ (ne d)), (check_dim2_ok _ _ (ne (d - 1))) by (try reflexivity; try assumption; lia). cbn [bind]. rewrite (zget_of (o_down m) d (Some (dn d)) ltac:(lia) E). cbn [bind].
  rewrite write_array_bytes by assumption. cbn [bind]. unfold down_head, down_data, codes_of. destruct (Z.eqb_spec d 1) as [->|Hd].
  - change (1 <? 1) with false. cbv iota. cbn [bind]. rewrite app_nil_r. reflexivity.
  - destruct (Z.ltb_spec 1 d); [|lia]. destruct E4 as (c & Ec & Hc). rewrite Ec. cbn [write_array_opt]. rewrite write_array_bytes by assumption. cbn [bind]. rewrite <- !app_assoc. reflexivity.
Qed.
Lemma degree_pos f d : 1 <= d <= 3 -> 0 < element_degree f d (d - 1).
Proof. intros H. assert (d = 1 \/ d = 2 \/ d = 3) as [->|[->| ->]] by lia; destruct f; vm_compute; reflexivity. Qed.
Lemma set_ents_ok d dns tg ow se pa ab codes : 1 <= d <= dim -> length dns = 4%nat -> zlen ab = ne d * element_degree (o_family m) d (d - 1) -> (if 1 <? d then exists c, codes = Some c else codes = None) ->
  o_set_ents (stage (partial (t_nents (o_t m)) (Z.to_nat d) (-1)) dns tg ow se pa) d (mk_adj [] ab codes) =
  Ok (stage (partial (t_nents (o_t m)) (S (Z.to_nat d)) (-1)) (list_set dns (Z.to_nat d) (Some (mk_adj [] ab codes))) tg ow se pa).
Proof.
  intros H L Hab Hc. pose proof (s_dim m Hs). destruct (s_four m Hs) as (F & _). destruct (ne_at d ltac:(lia)) as (E & _ & N). pose proof (degree_pos (o_family m) d ltac:(lia)) as Hdeg.
  unfold o_set_ents. rewrite check_dim_ok by (try reflexivity; lia). cbn [bind]. unfold has_ents. rewrite check_dim_ok by (try reflexivity; lia). cbn [bind].
  rewrite (zget_of (t_nents _) d (-1)) by (try lia; cbn [o_t stage t_nents]; apply partial_nth_next; lia). cbn [bind]. change (negb (0 <=? -1)) with true. cbn [check bind].
  unfold divide_no_remainder. cbn [adj_ab2b o_family stage]. rewrite Hab. destruct (Z.eqb_spec (element_degree (o_family m) d (d - 1)) 0); [lia|]. cbn [negb check bind]. rewrite Z.rem_mul by lia. change (0 =? 0) with true. cbn [check bind]. rewrite Z.quot_mul by lia.
  unfold with_nents. cbn [o_t stage t_nents]. rewrite zset_of by (unfold zlen; rewrite partial_length; lia). cbn [bind]. rewrite (partial_set _ _ (ne d)) by exact E.
  cbn [with_t o_t t_dim t_nents t_tags stage o_comm_size o_comm_rank o_family o_parting o_nghost_layers o_hints o_down o_owners o_sets o_parents].
  assert (zget (partial (t_nents (o_t m)) (S (Z.to_nat d)) (-1)) d = Ok (ne d)) as G by (apply zget_of; [lia|]; apply partial_nth; [lia|exact E]).
  rewrite (check_dim2_ok _ d (ne d)) by (try reflexivity; try assumption; lia). rewrite check_dim_ok by (try reflexivity; lia). cbn [bind adj_a2ab adj_codes]. change (zlen (@nil Z) =? 0) with true. cbn [check bind].
  match goal with |- (_ <- ?X ;; _) = _ => assert (X = Ok tt) as -> end.
  { destruct (Z.eqb_spec (d - 1) 0) as [E0|E0]; destruct (Z.ltb_spec 1 d); try lia; [rewrite Hc; reflexivity|destruct Hc as (c & ->); reflexivity]. }
  cbn [bind]. rewrite (nents_ok _ d (ne d)) by (try reflexivity; try assumption; lia). cbn [bind]. rewrite Z.eqb_refl. cbn [check bind]. rewrite zset_of by (unfold zlen; rewrite L; lia). reflexivity.
Qed.
Definition down_stage (j : nat) : omesh := stage (partial (t_nents (o_t m)) j (-1)) (partial (o_down m) j None) [[]; []; []; []] nones [] nones.
Lemma meets_down d : 1 <= d <= dim ->
  meets k (read_down z h r k (needs_swapping r) (down_stage (Z.to_nat d)) d) (down_head d) (down_data d) (down_stage (S (Z.to_nat d))) (fun _ => True).
Proof.
  intros H. destruct (dn_at d H) as (E & E1 & E2 & E3 & E4). destruct (s_four m Hs) as (_ & _ & F & _). pose proof (s_dim m Hs). unfold read_down, down_head, down_data, codes_of.
  assert (forall ab codes, zlen ab = zlen (adj_ab2b (dn d)) -> (if 1 <? d then exists c, codes = Some c else codes = None) ->
    o_set_ents (down_stage (Z.to_nat d)) d (mk_adj [] ab codes) = Ok (stage (partial (t_nents (o_t m)) (S (Z.to_nat d)) (-1)) (list_set (partial (o_down m) (Z.to_nat d) None) (Z.to_nat d) (Some (mk_adj [] ab codes))) [[]; []; []; []] nones [] nones)) as K.
  { intros ab codes Hab Hc. apply set_ents_ok; [exact H|rewrite partial_length; exact F|congruence|exact Hc]. }
  assert (forall codes, codes = adj_codes (dn d) -> list_set (partial (o_down m) (Z.to_nat d) None) (Z.to_nat d) (Some (mk_adj [] (adj_ab2b (dn d)) codes)) = partial (o_down m) (S (Z.to_nat d)) None) as K2.
  { intros codes ->. apply partial_set. rewrite E. destruct (dn d) as [a b c] eqn:Ed. cbn [adj_a2ab] in E1. subst a. reflexivity. }
  destruct (Z.eqb_spec d 1) as [Hd|Hd].
  - destruct (Z.ltb_spec 1 d); [lia|]. eapply meets_pure; [apply meets_array; assumption| |].
    + intros rest. unfold rbind, ret, lift. cbn [bind fst snd app]. rewrite K by reflexivity. cbn [bind]. rewrite K2 by (symmetry; exact E4). reflexivity.
    + intros ab Hab. eexists. split; [exact Logic.I|]. unfold rbind, ret, lift. cbn [bind fst snd]. rewrite K by (try reflexivity; exact Hab). reflexivity.
  - destruct E4 as (c & Ec & Hc). rewrite Ec in *. destruct (Z.ltb_spec 1 d); [|lia]. eapply meets_bind; [apply meets_array; assumption| |].
    + intros ab _. apply dead_bind, dead_bind, dead_array.
    + apply meets_assoc. eapply meets_pure; [apply meets_array; assumption| |].
      * intros rest. unfold rbind, ret, lift. cbn [bind fst snd app]. rewrite K by (try reflexivity; eauto). cbn [bind]. rewrite K2 by reflexivity. reflexivity.
      * intros c' _. eexists. split; [exact Logic.I|]. unfold rbind, ret, lift. cbn [bind fst snd]. rewrite K by (try reflexivity; eauto). reflexivity.
Qed.
Lemma dead_down mesh d : dead (read_down z h r k (needs_swapping r) mesh d).
Proof. apply dead_bind, dead_array. Qed.
Lemma meets_downs : exists c0 c1, flat_map (fun d => down_head d ++ down_data d) (zfromto 1 (dim + 1)) = c0 ++ c1 /\
  meets k (loop_over (zfromto 1 (dim + 1)) (read_down z h r k (needs_swapping r)) (down_stage 1)) c0 c1 (down_stage (S (Z.to_nat dim))) (fun _ => True).
Proof.
  pose proof (s_dim m Hs). destruct (meets_loop_over k (read_down z h r k (needs_swapping r)) (fun _ => True) (zfromto 1 (dim + 1)) (fun d => down_head d ++ down_data d) (fun _ _ => True) (fun pre => down_stage (S (length pre)))) as (c0 & c1 & E & M & _).
  - intros pre x post E. apply fromto_at in E as [Ex Bx]. exists (down_head x), (down_data x). split; [reflexivity|]. split; [exact Logic.I|]. rewrite app_length. cbn [length]. replace (S (length pre)) with (Z.to_nat x) by (unfold zlen in Ex; lia). replace (S (length pre + 1)) with (S (Z.to_nat x)) by (unfold zlen in Ex; lia). apply meets_down. lia.
  - intros a x _. apply dead_down.
  - exists c0, c1. split; [exact E|]. cbn [length] in M. replace (S (length (zfromto 1 (dim + 1)))) with (S (Z.to_nat dim)) in M. exact M. pose proof (zlen_zfromto 1 (dim + 1) ltac:(lia)) as L. unfold zlen in L. lia.
Qed.
Lemma write_downs : mapM (write_down z w m k (needs_swapping w)) (zfromto 1 (dim + 1)) = Ok (map (fun d => down_head d ++ down_data d) (zfromto 1 (dim + 1))).
Proof. apply mapM_map_ok. intros d Hd. apply in_zfromto in Hd. apply write_down_bytes. lia. Qed.

(** tags *)
Definition tscalar (t : tag) : scalar := match scalar_of_type (tag_type t) with Some s => s | None => I8 end.
Definition tarray (t : tag) : list Z := match tag_array t with Some a => a | None => [] end.
Definition tag_head (t : tag) : list Z := (put I32 (zlen (tag_name t)) ++ tag_name t) ++ put I8 (tag_ncomps t) ++ put I8 (tag_type t) ++ head_bytes z k (tscalar t) (tarray t).
Definition tag_data (t : tag) : list Z := data_bytes z k (tscalar t) (tarray t).
Lemma type_range t s : scalar_of_type t = Some s -> in_range I8 t.
Proof. unfold scalar_of_type, OMEGA_H_I8, OMEGA_H_I32, OMEGA_H_I64, OMEGA_H_F64. destruct (Z.eqb_spec t 0); [cbn; lia|]. destruct (Z.eqb_spec t 2); [cbn; lia|]. destruct (Z.eqb_spec t 3); [cbn; lia|]. destruct (Z.eqb_spec t 5); [cbn; lia|discriminate]. Qed.
Lemma tag_at n t : tag_ok n t -> name_ok (tag_name t) /\ tag_name t <> [] /\ 0 <= tag_ncomps t <= 127 /\ scalar_of_type (tag_type t) = Some (tscalar t) /\ tag_array t = Some (tarray t) /\ array_of (tscalar t) (tarray t) /\ zlen (tarray t) = n * tag_ncomps t.
Proof. intros (H1 & H2 & H3 & s & a & Es & Ea & H4 & H5). unfold tscalar, tarray. rewrite Es, Ea. repeat (split; [assumption||reflexivity|]). assumption. Qed.
Lemma write_tag_bytes n t : tag_ok n t -> write_tag z w t k (needs_swapping w) = Ok (tag_head t ++ tag_data t).
Proof.
  intros H. destruct (tag_at n t H) as (H1 & H2 & H3 & Es & Ea & H4 & H5). unfold write_tag. rewrite Es, Ea. cbn [write_array_opt]. rewrite write_array_bytes by assumption. cbn [bind].
  rewrite write_string_bytes by exact H1. rewrite !write_value_put. rewrite (cast_in I8) by (cbn; lia). unfold tag_head, tag_data. rewrite <- !app_assoc. reflexivity.
Qed.
Definition tg (d : Z) : list tag := nth (Z.to_nat d) (t_tags (o_t m)) [].
Lemma tg_at d : 0 <= d <= dim -> nth_error (t_tags (o_t m)) (Z.to_nat d) = Some (tg d) /\ zlen (tg d) <= 127 /\ Forall (tag_ok (ne d)) (tg d) /\ NoDup (map tag_name (tg d)).
Proof.
  intros H. pose proof (s_dim m Hs). destruct (s_four m Hs) as (_ & F & _). destruct (ne_at d H) as (_ & G & _). pose proof (nth_of (t_tags (o_t m)) d [] ltac:(lia)) as E. split; [exact E|]. apply (s_tags m Hs d _ _ H G). apply zget_of; [lia|exact E].
Qed.
(** while the tags of dimension [d] are read *)
Definition tag_stage (d : Z) (ow : list (option (list Z * list Z))) (done : list tag) : omesh :=
  stage (t_nents (o_t m)) (o_down m) (list_set (partial (t_tags (o_t m)) (Z.to_nat d) []) (Z.to_nat d) done) ow [] nones.
Lemma find_none l name : ~ In name (map tag_name l) -> find_tag l name = None.
Proof.
  induction l as [|t l IH]; intros H; [reflexivity|]. cbn [find_tag map] in *. unfold same_name. destruct (list_eq_dec Z.eq_dec (tag_name t) name) as [E|_]; [destruct H; left; exact E|]. apply IH. intros K. apply H. right. exact K.
Qed.
Lemma list_set_twice {A} (l : list A) n x y : list_set (list_set l n x) n y = list_set l n y.
Proof. revert n. induction l as [|a l IH]; intros [|n]; cbn; [reflexivity..|]. rewrite IH. reflexivity. Qed.
Lemma add_tag_ok d ow pre t post a : 0 <= d <= dim -> tg d = pre ++ t :: post -> zlen a = zlen (tarray t) ->
  add_tag (o_t (tag_stage d ow pre)) (tag_type t) d (tag_name t) (tag_ncomps t) (Some a) true = Ok (o_t (tag_stage d ow (pre ++ [mk_tag (tag_name t) (tag_type t) (tag_ncomps t) (Some a)]))).
Proof.
  intros H E Ha. destruct (tg_at d H) as (En & L & Fo & Nd). destruct (ne_at d H) as (_ & G & N). destruct (s_four m Hs) as (_ & F & _). pose proof (s_dim m Hs).
  rewrite E in Fo, Nd, L. apply Forall_app in Fo as [_ Fo]. apply Forall_cons_iff in Fo as [Ft _]. destruct (tag_at _ _ Ft) as (H1 & H2 & H3 & Es & Ea & H4 & H5).
  assert (length (list_set (partial (t_tags (o_t m)) (Z.to_nat d) []) (Z.to_nat d) pre) = 4%nat) as L4 by (rewrite list_set_length, partial_length; exact F).
  unfold add_tag, tag_stage. cbn [o_t stage t_tags t_nents t_dim]. rewrite (zget_of _ d pre) by (try lia; apply list_set_nth_eq; rewrite partial_length; lia). cbn [bind].
  rewrite find_none. 2:{ rewrite map_app in Nd. cbn [map] in Nd. apply NoDup_remove_2 in Nd. intros K. apply Nd. apply in_or_app. left. exact K. }
  rewrite (check_dim2_ok _ d (ne d)) by (try reflexivity; try assumption; lia). cbn [bind]. destruct (tag_name t) as [|c nm] eqn:Enm; [congruence|]. destruct (Z.leb_spec 0 (tag_ncomps t)); [|lia]. destruct (Z.leb_spec (tag_ncomps t) 127); [|lia]. cbn [negb].
  rewrite zlen_app, zlen_cons in L. pose proof (zlen_nonneg post). destruct (Z.ltb_spec (zlen pre) 127); [|lia]. cbn [negb bind]. rewrite G. cbn [bind]. rewrite Ha, H5, Z.eqb_refl. cbn [negb bind].
  rewrite zset_of by (unfold zlen; rewrite L4; lia). cbn [bind]. rewrite list_set_twice. reflexivity.
Qed.
Lemma meets_tag d ow pre t post : 0 <= d <= dim -> tg d = pre ++ t :: post ->
  meets k (read_tag z h r (tag_stage d ow pre) d k 9 (needs_swapping r)) (tag_head t) (tag_data t) (tag_stage d ow (pre ++ [t])) (fun x => o_comm_size x = o_comm_size m).
Proof.
  intros H E. destruct (tg_at d H) as (En & L & Fo & Nd). rewrite E in Fo. apply Forall_app in Fo as [_ Fo]. apply Forall_cons_iff in Fo as [Ft _]. destruct (tag_at _ _ Ft) as (H1 & H2 & H3 & Es & Ea & H4 & H5).
  unfold read_tag, tag_head, tag_data. eapply meets_bind; [apply meets_string; exact H1|intros; apply dead_used|]. eapply meets_full; [apply meets_used; cbn; lia|]. eapply meets_full; [apply meets_used; eapply type_range; exact Es|].
  change (9 <? 5) with false. cbv iota. match goal with |- meets ?k (rbind (ret ?v) ?f) ?b0 ?b1 ?w ?Q => change (meets k (f v) b0 b1 w Q); cbv beta end. rewrite Es. eapply meets_pure; [apply meets_array; assumption| |].
  - intros rest. unfold rbind, lift, ret. rewrite (add_tag_ok d ow pre t post) by (try assumption; reflexivity). cbn [bind fst snd app]. unfold tag_stage, with_t, stage. cbn. destruct t as [nm ty nc ar]. cbn in *. rewrite Ea. reflexivity.
  - intros a Ha. eexists. split; [|unfold rbind, lift, ret; rewrite (add_tag_ok d ow pre t post) by assumption; reflexivity]. reflexivity.
Qed.
Lemma dead_tag mesh d : dead (read_tag z h r mesh d k 9 (needs_swapping r)).
Proof. apply dead_bind, dead_string. Qed.

(** owners *)
Definition ow (d : Z) : list Z * list Z := match nth (Z.to_nat d) (o_owners m) None with Some p => p | None => ([], []) end.
Definition owner_list : list (option (list Z * list Z)) := if 1 <? o_comm_size m then o_owners m else nones.
Lemma ow_at d : 1 < o_comm_size m -> 0 <= d <= dim -> nth_error (o_owners m) (Z.to_nat d) = Some (Some (ow d)) /\ zlen (fst (ow d)) = ne d /\ zlen (snd (ow d)) = ne d /\ array_of I32 (fst (ow d)) /\ array_of I32 (snd (ow d)).
Proof.
  intros Hc H. pose proof (s_dim m Hs). destruct (s_four m Hs) as (_ & _ & _ & F & _). destruct (ne_at d H) as (_ & G & _). pose proof (nth_of (o_owners m) d None ltac:(lia)) as E.
  destruct (s_owners m Hs Hc d _ _ H G (zget_of _ d _ ltac:(lia) E)) as (a & b & Ea & K). rewrite Ea in E. unfold ow. rewrite Ea. split; [exact E|]. exact K.
Qed.
Definition owner_bytes (d : Z) : list Z :=
  if 1 <? o_comm_size m then (head_bytes z k I32 (fst (ow d)) ++ data_bytes z k I32 (fst (ow d))) ++ head_bytes z k I32 (snd (ow d)) ++ data_bytes z k I32 (snd (ow d)) else [].
Definition dim_bytes (d : Z) : list Z := put I32 (zlen (tg d)) ++ flat_map (fun t => tag_head t ++ tag_data t) (tg d) ++ owner_bytes d.
Lemma write_dim_bytes d : 0 <= d <= dim -> write_dim z w m k (needs_swapping w) d = Ok (dim_bytes d).
Proof.
  intros H. destruct (tg_at d H) as (En & L & Fo & Nd). destruct (ne_at d H) as (_ & G & N).
  assert (ntags (o_t m) d = Ok (zlen (tg d))) as Hn. { unfold ntags. rewrite (check_dim2_ok _ d (ne d)) by (try reflexivity; try assumption; lia). cbn [bind]. rewrite (zget_of _ d (tg d)) by (try lia; exact En). reflexivity. }
  unfold write_dim. rewrite Hn. cbn [bind].
  rewrite (mapM_map_ok _ (fun i => match nth_error (tg d) (Z.to_nat i) with Some t => tag_head t ++ tag_data t | None => [] end)).
  2:{ intros i Hi. apply in_zrange in Hi. unfold get_tag_i. rewrite (check_dim2_ok _ d (ne d)) by (try reflexivity; try assumption; lia). cbn [bind]. destruct (Z.leb_spec 0 i); [|lia]. rewrite Hn. cbn [negb bind]. destruct (Z.leb_spec i (zlen (tg d))); [|lia]. cbn [negb bind].
      rewrite (zget_of _ d (tg d)) by (try lia; exact En). cbn [bind]. destruct (zget_in_range (tg d) i Hi) as (t & Et). rewrite Et. cbn [bind]. pose proof (zget_In _ _ _ Et) as It. rewrite Forall_forall in Fo. rewrite (write_tag_bytes (ne d) t) by (apply Fo, It).
      apply zget_ok in Et as [_ Et]. rewrite Et. reflexivity. }
  cbn [bind]. assert (concat (map (fun i => match nth_error (tg d) (Z.to_nat i) with Some t => tag_head t ++ tag_data t | None => [] end) (zrange (zlen (tg d)))) = flat_map (fun t => tag_head t ++ tag_data t) (tg d)) as ->.
  { rewrite <- concat_flat. f_equal. unfold zrange, zlen. rewrite Nat2Z.id, map_map. generalize (tg d). intros l. clear. apply list_eq_nth. intros i. rewrite !nth_error_map. destruct (Nat.lt_ge_cases i (length l)) as [Li|Li].
    - rewrite (nth_error_nth' (seq 0 (length l)) 0%nat) by (rewrite seq_length; exact Li). rewrite seq_nth by exact Li. cbn [option_map plus]. rewrite Nat2Z.id. destruct (nth_error l i) eqn:E; [reflexivity|]. apply nth_error_None in E. lia.
    - rewrite (proj2 (nth_error_None (seq 0 (length l)) i)) by (rewrite seq_length; exact Li). rewrite (proj2 (nth_error_None l i)) by exact Li. reflexivity. }
  unfold dim_bytes, owner_bytes. rewrite write_value_put. destruct (Z.ltb_spec 1 (o_comm_size m)) as [Hc|Hc]; [|reflexivity]. destruct (ow_at d Hc H) as (Eo & L1 & L2 & A1 & A2). unfold o_ask_owners. rewrite (zget_of (o_owners m) d (Some (ow d)) ltac:(lia) Eo). cbn [bind]. rewrite !write_array_bytes by assumption. cbn [bind]. rewrite <- !app_assoc. reflexivity.
Qed.
Definition dim_stage (j : nat) : omesh := stage (t_nents (o_t m)) (o_down m) (partial (t_tags (o_t m)) j []) (partial owner_list j None) [] nones.
Lemma owner_list_length : length owner_list = 4%nat.
Proof. unfold owner_list. destruct (1 <? o_comm_size m); [apply (s_four m Hs)|reflexivity]. Qed.
Lemma list_set_same {A} (l : list A) n x : nth_error l n = Some x -> list_set l n x = l.
Proof. revert n. induction l as [|a l IH]; intros [|n] E; cbn in *; try discriminate; [injection E as ->; reflexivity|]. f_equal. apply IH, E. Qed.
Lemma set_owners_ok d tgs rs is_ : 0 <= d <= dim -> 1 < o_comm_size m -> zlen rs = ne d -> zlen is_ = ne d ->
  o_set_owners (stage (t_nents (o_t m)) (o_down m) tgs (partial owner_list (Z.to_nat d) None) [] nones) d (rs, is_) =
  Ok (stage (t_nents (o_t m)) (o_down m) tgs (list_set (partial owner_list (Z.to_nat d) None) (Z.to_nat d) (Some (rs, is_))) [] nones).
Proof.
  intros H Hc L1 L2. pose proof (s_dim m Hs). destruct (ne_at d H) as (_ & G & N). unfold o_set_owners. rewrite (check_dim2_ok _ d (ne d)) by (try reflexivity; try assumption; lia). rewrite (nents_ok _ d (ne d)) by (try reflexivity; try assumption; lia). cbn [bind fst snd]. rewrite L1, L2, Z.eqb_refl. cbn [check bind].
  cbn [stage o_owners]. rewrite zset_of by (unfold zlen; rewrite partial_length, owner_list_length; lia). reflexivity.
Qed.
Lemma meets_dim d : 0 <= d <= dim -> exists b0 b1, dim_bytes d = b0 ++ b1 /\
  meets k (read_dim z h r k 9 (needs_swapping r) (dim_stage (Z.to_nat d)) d) b0 b1 (dim_stage (S (Z.to_nat d))) (fun _ => True).
Proof.
  intros H. pose proof (s_dim m Hs). destruct (tg_at d H) as (En & L & Fo & Nd). destruct (s_four m Hs) as (_ & F & _). pose proof (zlen_nonneg (tg d)).
  destruct (meets_loop_n k (fun mesh => read_tag z h r mesh d k 9 (needs_swapping r)) (fun x => o_comm_size x = o_comm_size m) (tg d) (fun t => tag_head t ++ tag_data t) (tag_stage d (partial owner_list (Z.to_nat d) None))) as (c0 & c1 & Ec & M).
  { intros pre t post E. exists (tag_head t), (tag_data t). split; [reflexivity|]. apply meets_tag with (post := post); assumption. } { intros a _. apply dead_tag. }
  assert (tag_stage d (partial owner_list (Z.to_nat d) None) [] = dim_stage (Z.to_nat d)) as S0. { unfold tag_stage, dim_stage. rewrite list_set_same; [reflexivity|]. apply partial_nth_next. lia. }
  assert (forall o, tag_stage d o (tg d) = stage (t_nents (o_t m)) (o_down m) (partial (t_tags (o_t m)) (S (Z.to_nat d)) []) o [] nones) as S1. { intros o. unfold tag_stage. rewrite (partial_set _ _ (tg d)) by exact En. reflexivity. }
  rewrite S0, S1 in M. unfold read_dim, dim_bytes, owner_bytes. rewrite Ec.
  destruct (Z.ltb_spec 1 (o_comm_size m)) as [Hc|Hc].
  - destruct (ow_at d Hc H) as (Eo & L1 & L2 & A1 & A2). exists (put I32 (zlen (tg d)) ++ (c0 ++ c1) ++ (head_bytes z k I32 (fst (ow d)) ++ data_bytes z k I32 (fst (ow d))) ++ head_bytes z k I32 (snd (ow d))), (data_bytes z k I32 (snd (ow d))). split; [rewrite <- !app_assoc; reflexivity|].
    eapply meets_full; [apply meets_used; cbn; lia|]. unfold zlen at 1. rewrite Nat2Z.id. eapply meets_bind; [exact M| |].
    + intros x Hx. cbv beta. rewrite Hx. destruct (Z.ltb_spec 1 (o_comm_size m)); [|lia]. apply dead_bind, dead_array.
    + cbn [stage o_comm_size]. destruct (Z.ltb_spec 1 (o_comm_size m)); [|lia]. eapply meets_bind; [apply meets_array; assumption|intros; apply dead_bind, dead_array|]. eapply meets_pure; [apply meets_array; assumption| |].
      * intros rest. unfold lift. fold (stage (t_nents (o_t m)) (o_down m) (partial (t_tags (o_t m)) (S (Z.to_nat d)) []) (partial owner_list (Z.to_nat d) None) [] nones). rewrite set_owners_ok by assumption. cbn [bind app]. unfold dim_stage. do 3 f_equal. rewrite (partial_set owner_list); [reflexivity|]. unfold owner_list. destruct (Z.ltb_spec 1 (o_comm_size m)); [|lia]. rewrite Eo. destruct (ow d); reflexivity.
      * intros x Hx. eexists. split; [exact Logic.I|]. unfold lift. rewrite set_owners_ok by (try assumption; congruence). reflexivity.
  - exists (put I32 (zlen (tg d)) ++ c0), c1. split; [rewrite app_nil_r, <- !app_assoc; reflexivity|]. eapply meets_full; [apply meets_used; cbn; lia|]. unfold zlen at 1. rewrite Nat2Z.id. eapply meets_pure; [exact M| |].
    + intros rest. cbn [stage o_comm_size]. destruct (Z.ltb_spec 1 (o_comm_size m)); [lia|]. unfold ret. cbn [app]. unfold dim_stage. do 3 f_equal. unfold owner_list. destruct (Z.ltb_spec 1 (o_comm_size m)); [lia|]. assert (Z.to_nat d < 4)%nat as Ld by lia. destruct (Z.to_nat d) as [|[|[|[|n]]]]; try lia; reflexivity.
    + intros x Hx. cbv beta. rewrite Hx. destruct (Z.ltb_spec 1 (o_comm_size m)); [lia|]. eexists. split; [exact Logic.I|reflexivity].
Qed.
Lemma dead_dim mesh d : dead (read_dim z h r k 9 (needs_swapping r) mesh d).
Proof. apply dead_used. Qed.
Lemma meets_dims : exists c0 c1, flat_map dim_bytes (zfromto 0 (dim + 1)) = c0 ++ c1 /\
  meets k (loop_over (zfromto 0 (dim + 1)) (read_dim z h r k 9 (needs_swapping r)) (dim_stage 0)) c0 c1 (dim_stage (S (Z.to_nat dim))) (fun _ => True).
Proof.
  pose proof (s_dim m Hs). destruct (meets_loop_over k (read_dim z h r k 9 (needs_swapping r)) (fun _ => True) (zfromto 0 (dim + 1)) dim_bytes (fun _ _ => True) (fun pre => dim_stage (length pre))) as (c0 & c1 & E & M & _).
  - intros pre x post E. apply fromto_at in E as [Ex Bx]. destruct (meets_dim x ltac:(lia)) as (b0 & b1 & Eb & Mb). exists b0, b1. split; [exact Eb|]. split; [exact Logic.I|]. rewrite app_length. cbn [length]. replace (length pre) with (Z.to_nat x) by (unfold zlen in Ex; lia). rewrite Nat.add_1_r. exact Mb.
  - intros a x _. apply dead_dim.
  - exists c0, c1. split; [exact E|]. cbn [length] in M. replace (length (zfromto 0 (dim + 1))) with (S (Z.to_nat dim)) in M. exact M. pose proof (zlen_zfromto 0 (dim + 1) ltac:(lia)) as L. unfold zlen in L. lia.
Qed.
Lemma write_dims : mapM (write_dim z w m k (needs_swapping w)) (zfromto 0 (dim + 1)) = Ok (map dim_bytes (zfromto 0 (dim + 1))).
Proof. apply mapM_map_ok. intros d Hd. apply in_zfromto in Hd. apply write_dim_bytes. lia. Qed.
End mesh.
