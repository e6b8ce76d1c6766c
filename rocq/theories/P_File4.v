(** Class sets, parents and whole meshes. *)
From Verif Require Import Prelude M_Sort M_Template M_Adj M_Parents M_Tags M_File S_File P_File P_File2 P_File3.
Local Open Scope Z_scope.

(** the order of names *)
Lemma name_ltb_irrefl a : name_ltb a a = false.
Proof. induction a as [|x a IH]; [reflexivity|]. cbn [name_ltb]. rewrite Z.ltb_irrefl, Z.eqb_refl, IH. reflexivity. Qed.
Lemma name_ltb_trans a b c : name_ltb a b = true -> name_ltb b c = true -> name_ltb a c = true.
Proof.
  revert b c. induction a as [|x a IH]; intros [|y b] [|u c] H1 H2; cbn [name_ltb] in *; try discriminate; try reflexivity.
  apply orb_true_iff in H1. apply orb_true_iff in H2. apply orb_true_iff. rewrite !Z.ltb_lt, !andb_true_iff, !Z.eqb_eq in *.
  destruct H1 as [H1|[H1 H1']]; destruct H2 as [H2|[H2 H2']]; try (left; lia). right. split; [lia|]. eapply IH; eassumption.
Qed.
Lemma name_ltb_asym a b : name_ltb a b = true -> name_ltb b a = false.
Proof. intros H. destruct (name_ltb b a) eqn:E; [|reflexivity]. rewrite <- (name_ltb_irrefl a). symmetry. eapply name_ltb_trans; eassumption. Qed.
Lemma increasing_before pre x post : increasing (pre ++ x :: post) -> forall y, In y pre -> name_ltb y x = true.
Proof.
  induction pre as [|a pre IH]; intros H y Hy; [destruct Hy|]. cbn [app] in H. assert (increasing (pre ++ x :: post)) as H' by (destruct (pre ++ x :: post); [exact Logic.I|apply H]). destruct Hy as [->|Hy]; [|apply IH; assumption].
  destruct pre as [|b pre]; [apply H|]. eapply name_ltb_trans; [apply H|]. apply IH; [exact H'|left; reflexivity].
Qed.
Lemma push_last done name p : (forall s, In s done -> name_ltb (fst s) name = true) -> push_pair done name p = done ++ [(name, [p])].
Proof.
  induction done as [|s done IH]; intros H; [reflexivity|]. cbn [push_pair app]. assert (name_ltb (fst s) name = true) as E by (apply H; left; reflexivity). rewrite E, (name_ltb_asym _ _ E). f_equal. apply IH. intros t Ht. apply H. right. exact Ht.
Qed.
Lemma push_more done name ps p : (forall s, In s done -> name_ltb (fst s) name = true) -> push_pair (done ++ [(name, ps)]) name p = done ++ [(name, ps ++ [p])].
Proof.
  induction done as [|s done IH]; intros H; [cbn; rewrite name_ltb_irrefl; reflexivity|]. cbn [push_pair app]. assert (name_ltb (fst s) name = true) as E by (apply H; left; reflexivity). rewrite E, (name_ltb_asym _ _ E). f_equal. apply IH. intros t Ht. apply H. right. exact Ht.
Qed.
Definition inhabited_sets (l : list class_set) : list class_set := filter (fun s => match snd s with [] => false | _ => true end) l.

Section mesh.
Variables (z : zlib) (h : heap) (w r : machine) (m : omesh).
Hypothesis Hz : zlib_works z.
Hypothesis Hs : storable m.
Hypothesis Hk : has_zlib w = true -> has_zlib r = true.
Notation k := (has_zlib w).
Notation dim := (o_dim m).
Notation stage := (stage m).

Definition pair_bytes (p : Z * Z) : list Z := put I32 (fst p) ++ put I32 (snd p).
Definition set_bytes (s : class_set) : list Z := (put I32 (zlen (fst s)) ++ fst s) ++ put I32 (zlen (snd s)) ++ flat_map pair_bytes (snd s).
Definition sets_bytes : list Z := put I32 (zlen (o_sets m)) ++ flat_map set_bytes (o_sets m).
Lemma write_sets_bytes : write_sets w m (needs_swapping w) = sets_bytes.
Proof.
  destruct (s_sets m Hs) as (Hc & Hf & _). unfold write_sets, sets_bytes. rewrite write_value_put. unfold countable in Hc. pose proof (zlen_nonneg (o_sets m)). rewrite (cast_in I32) by (cbn; lia). f_equal.
  rewrite <- !concat_flat. f_equal. apply map_ext_in. intros s Hin. rewrite Forall_forall in Hf. destruct (Hf s Hin) as (H1 & H2 & H3). unfold write_set, set_bytes. rewrite write_string_bytes by exact H1. rewrite write_value_put. unfold countable in H2. pose proof (zlen_nonneg (snd s)). rewrite (cast_in I32) by (cbn; lia). do 2 f_equal.
  apply flat_map_ext. intros p. rewrite !write_value_put. reflexivity.
Qed.
Definition set_stage (sets : list class_set) : omesh := stage (t_nents (o_t m)) (o_down m) (t_tags (o_t m)) (owner_list m) sets nones.
Lemma meets_value mm t v : in_range t v -> meets k (o <<- read_value mm t (needs_swapping mm) ;; use o) (put t v) [] v nothing.
Proof. apply meets_used. Qed.
Lemma read_value_exact mm t v : in_range t v -> exact_on (read_value mm t (needs_swapping mm)) (put t v) (Some v).
Proof.
  intros Hv rest. unfold read_value. rewrite <- (put_zlen t v). rewrite stream_read_all, Z.eqb_refl. rewrite read_one by (try apply put_byte; apply put_length). rewrite got_put by exact Hv. reflexivity.
Qed.
Lemma read_value_cut mm t v p : cut_short p (put t v) -> read_value mm t (needs_swapping mm) (mk_istream p true) = Ok (None, at_end).
Proof.
  intros Hp. unfold read_value. destruct (stream_read_cut _ _ Hp) as [E L]. rewrite <- (put_zlen t v), E. destruct (Z.eqb_spec (zlen p) (zlen (put t v))); [lia|]. reflexivity.
Qed.
Lemma meets_pair {A} (f : Z -> Z -> A) p : in_range I32 (fst p) -> in_range I32 (snd p) ->
  meets k (dim <<- read_value r I32 (needs_swapping r) ;; id <<- read_value r I32 (needs_swapping r) ;; dim <<- use dim ;; id <<- use id ;; ret (f dim id)) (pair_bytes p) [] (f (fst p) (snd p)) nothing.
Proof.
  intros H1 H2. split; [|split].
  - intros rest. unfold pair_bytes. rewrite app_nil_r, <- app_assoc. unfold rbind. rewrite (read_value_exact r I32 (fst p) H1). cbn [bind fst snd]. rewrite (read_value_exact r I32 (snd p) H2). reflexivity.
  - intros q Hq. left. unfold pair_bytes in Hq. apply cut_app in Hq as [Hq|(q' & -> & Hq)]; unfold rbind.
    + rewrite (read_value_cut r I32 _ q Hq). cbn [bind fst snd]. unfold read_value, stream_read, at_end. cbn. reflexivity.
    + rewrite (read_value_exact r I32 (fst p) H1). cbn [bind fst snd]. rewrite (read_value_cut r I32 _ q' Hq). reflexivity.
  - intros q Hq. destruct (not_cut_nil _ Hq).
Qed.
Lemma meets_set pre s post : o_sets m = pre ++ s :: post -> meets k (read_set r (needs_swapping r) (set_stage (inhabited_sets pre))) (set_bytes s) [] (set_stage (inhabited_sets (pre ++ [s]))) nothing.
Proof.
  intros E. destruct (s_sets m Hs) as (_ & Hf & Hi). rewrite E in Hf, Hi. apply Forall_app in Hf as [_ Hf]. apply Forall_cons_iff in Hf as [(H1 & H2 & H3) _]. rewrite map_app in Hi. cbn [map] in Hi. unfold countable in H2. pose proof (zlen_nonneg (snd s)).
  assert (forall t, In t (inhabited_sets pre) -> name_ltb (fst t) (fst s) = true) as Hlt. { intros t Ht. apply filter_In in Ht as [Ht _]. eapply increasing_before; [exact Hi|]. apply in_map, Ht. }
  unfold read_set, set_bytes. eapply meets_bind; [apply meets_string; exact H1|intros; apply dead_used|]. eapply meets_full; [apply meets_used; cbn; lia|]. unfold zlen. rewrite Nat2Z.id.
  assert (inhabited_sets (pre ++ [s]) = inhabited_sets pre ++ match snd s with [] => [] | _ => [(fst s, snd s)] end) as ->. { unfold inhabited_sets. rewrite filter_app. cbn [filter]. destruct s as [nm [|p ps]]; reflexivity. }
  set (st := fun ps : list (Z * Z) => set_stage (inhabited_sets pre ++ match ps with [] => [] | _ => [(fst s, ps)] end)).
  change (meets k (loop_n (length (snd s)) (fun mesh => dim <<- read_value r I32 (needs_swapping r) ;; id <<- read_value r I32 (needs_swapping r) ;; dim <<- use dim ;; id <<- use id ;; ret (with_sets mesh (push_pair (o_sets mesh) (fst s) (dim, id)))) (set_stage (inhabited_sets pre))) (flat_map pair_bytes (snd s)) [] (st (snd s)) nothing).
  replace (set_stage (inhabited_sets pre)) with (st []) by (unfold st; rewrite app_nil_r; reflexivity).
  apply meets_loop_n_full. intros ps p ps' Ep. rewrite Forall_forall in H3. destruct (H3 p) as [P1 P2]; [rewrite Ep; apply in_elt|].
  assert (st (ps ++ [p]) = with_sets (st ps) (push_pair (o_sets (st ps)) (fst s) (fst p, snd p))) as ->.
  { unfold st. cbn [o_sets set_stage P_File3.stage]. destruct p as [p1 p2]. cbn [fst snd]. destruct ps as [|p' ps]; cbn [app].
    - rewrite app_nil_r, push_last by exact Hlt. reflexivity.
    - rewrite push_more by exact Hlt. reflexivity. }
  apply (meets_pair (fun dim id => with_sets (st ps) (push_pair (o_sets (st ps)) (fst s) (dim, id))) p P1 P2).
Qed.
Lemma meets_sets : meets k (read_sets r (needs_swapping r) (set_stage [])) sets_bytes [] (set_stage (inhabited_sets (o_sets m))) nothing.
Proof.
  destruct (s_sets m Hs) as (Hc & _ & _). unfold countable in Hc. pose proof (zlen_nonneg (o_sets m)). unfold read_sets, sets_bytes. eapply meets_full; [apply meets_used; cbn; lia|]. unfold zlen. rewrite Nat2Z.id.
  apply (meets_loop_n_full k (read_set r (needs_swapping r)) (o_sets m) set_bytes (fun pre => set_stage (inhabited_sets pre))). intros pre s post E. apply (meets_set pre s post E).
Qed.
Lemma dead_sets mesh : dead (read_sets r (needs_swapping r) mesh).
Proof. apply dead_used. Qed.

(** parents *)
Definition pa (d : Z) : parents := match nth (Z.to_nat d) (o_parents m) None with Some p => p | None => (repeat (-1) (Z.to_nat (ne m d)), repeat 0 (Z.to_nat (ne m d))) end.
Lemma repeat_array t x n : in_range t x -> 0 <= n <= 2147483647 -> array_of t (repeat x (Z.to_nat n)).
Proof. intros Hx Hn. split; [unfold countable, zlen; rewrite repeat_length; lia|]. apply Forall_forall. intros y Hy. apply repeat_spec in Hy. subst y. exact Hx. Qed.
Lemma pa_at d : 0 <= d <= dim -> o_ask_parents m d = Ok (pa d) /\ array_of I32 (fst (pa d)) /\ array_of I8 (snd (pa d)).
Proof.
  intros H. pose proof (s_dim m Hs). destruct (s_four m Hs) as (_ & _ & _ & _ & F). destruct (ne_at w r m Hs d H) as (_ & G & N). pose proof (nth_of (o_parents m) d None ltac:(lia)) as E. pose proof (zget_of _ d _ ltac:(lia) E) as E'.
  unfold o_ask_parents. rewrite (check_dim2_ok w r m Hs _ d (ne m d)) by (try reflexivity; try assumption; lia). rewrite E'. cbn [bind]. unfold pa. pose proof (s_parents m Hs d _ H E') as P. destruct (nth (Z.to_nat d) (o_parents m) None) as [[i c]|].
  - split; [reflexivity|]. apply (P i c). reflexivity.
  - rewrite (nents_ok w r m Hs _ d (ne m d)) by (try reflexivity; try assumption; lia). split; [reflexivity|]. cbn [fst snd]. split; apply repeat_array; try assumption; cbn; lia.
Qed.
Definition parents_head (d : Z) : list Z := (head_bytes z k I32 (fst (pa d)) ++ data_bytes z k I32 (fst (pa d))) ++ head_bytes z k I8 (snd (pa d)).
Definition parents_data (d : Z) : list Z := data_bytes z k I8 (snd (pa d)).
Lemma write_parents_bytes d : 0 <= d <= dim -> write_parents z w m k (needs_swapping w) d = Ok (parents_head d ++ parents_data d).
Proof.
  intros H. destruct (pa_at d H) as (E & A1 & A2). unfold write_parents. rewrite E. cbn [bind]. rewrite !write_array_bytes by assumption. cbn [bind]. unfold parents_head, parents_data. rewrite <- !app_assoc. reflexivity.
Qed.
Definition parents_list : list (option parents) := explicit_parents m.
Definition parents_stage (j : nat) : omesh := stage (t_nents (o_t m)) (o_down m) (t_tags (o_t m)) (owner_list m) (inhabited_sets (o_sets m)) (partial parents_list j None).
Lemma parents_list_at d : 0 <= d <= dim -> nth_error parents_list (Z.to_nat d) = Some (Some (pa d)).
Proof.
  intros H. pose proof (s_dim m Hs). unfold parents_list, explicit_parents. erewrite map_nth_error by (instantiate (1 := d); assert (d = 0 \/ d = 1 \/ d = 2 \/ d = 3) as [->|[->|[->| ->]]] by lia; reflexivity).
  destruct (Z.leb_spec d dim); [|lia]. unfold pa, ne. destruct (nth (Z.to_nat d) (o_parents m) None); reflexivity.
Qed.
Lemma set_parents_ok d p pl : 0 <= d <= dim -> length pl = 4%nat ->
  o_set_parents (stage (t_nents (o_t m)) (o_down m) (t_tags (o_t m)) (owner_list m) (inhabited_sets (o_sets m)) pl) d p =
  Ok (stage (t_nents (o_t m)) (o_down m) (t_tags (o_t m)) (owner_list m) (inhabited_sets (o_sets m)) (list_set pl (Z.to_nat d) (Some p))).
Proof.
  intros H L. pose proof (s_dim m Hs). destruct (ne_at w r m Hs d H) as (_ & G & N). unfold o_set_parents. rewrite (check_dim2_ok w r m Hs _ d (ne m d)) by (try reflexivity; try assumption; lia). cbn [bind stage P_File3.stage o_parents]. rewrite zset_of by (unfold zlen; rewrite L; lia). reflexivity.
Qed.
Definition codes_lost (d : Z) (x : omesh) : Prop := exists c, zlen c = zlen (snd (pa d)) /\
  x = with_parents (parents_stage (S (Z.to_nat d))) (list_set (partial parents_list (S (Z.to_nat d)) None) (Z.to_nat d) (Some (fst (pa d), c))).
Lemma list_set_twice {A} (l : list A) i x y : list_set (list_set l i x) i y = list_set l i y.
Proof. revert i. induction l as [|a l IH]; intros [|i]; cbn; [reflexivity..|]. f_equal. apply IH. Qed.
Lemma meets_parents d : 0 <= d <= dim -> meets k (read_parents z h r k (needs_swapping r) (parents_stage (Z.to_nat d)) d) (parents_head d) (parents_data d) (parents_stage (S (Z.to_nat d))) (codes_lost d).
Proof.
  intros H. destruct (pa_at d H) as (_ & A1 & A2). unfold read_parents, parents_head, parents_data. eapply meets_bind; [apply meets_array; assumption|intros; apply dead_bind, dead_array|]. assert (length (partial parents_list (Z.to_nat d) None) = 4%nat) as L by (rewrite partial_length; reflexivity).
  eapply meets_pure; [apply meets_array; assumption| |].
  - intros rest. unfold lift, parents_stage. rewrite set_parents_ok by assumption. cbn [bind app]. unfold P_File3.stage. do 3 f_equal. apply partial_set. rewrite parents_list_at by exact H. destruct (pa d); reflexivity.
  - intros c Hc. eexists. split; [exists c; split; [exact Hc|reflexivity]|]. unfold lift, parents_stage. rewrite set_parents_ok by assumption. cbn [bind]. rewrite <- (partial_set parents_list (Z.to_nat d) (Some (pa d))) by (apply parents_list_at, H). rewrite list_set_twice. reflexivity.
Qed.
Lemma loop_over_last {A X} (f : A -> X -> reader A) l x a s : loop_over (l ++ [x]) f a s = rbind (loop_over l f a) (fun a => f a x) s.
Proof.
  revert a s. induction l as [|y l IH]; intros a s; cbn [app loop_over].
  - unfold rbind, ret. cbn [bind fst snd]. destruct (f a x s) as [[v s']| |]; reflexivity.
  - rewrite <- rbind_assoc. unfold rbind at 1 2. destruct (f a y s) as [[v s']| |]; cbn [bind fst snd]; [apply IH|reflexivity..].
Qed.
Lemma meets_parents_all : exists c0, flat_map (fun d => parents_head d ++ parents_data d) (zfromto 0 (dim + 1)) = c0 ++ parents_data dim /\
  meets k (loop_over (zfromto 0 (dim + 1)) (read_parents z h r k (needs_swapping r)) (parents_stage 0)) c0 (parents_data dim) (parents_stage (S (Z.to_nat dim))) (codes_lost dim).
Proof.
  pose proof (s_dim m Hs). destruct (meets_loop_over k (read_parents z h r k (needs_swapping r)) (fun _ => True) (zfromto 0 dim) (fun d => parents_head d ++ parents_data d) (fun _ _ => True) (fun pre => parents_stage (length pre))) as (c0 & c1 & E & M & _).
  - intros pre x post E. apply fromto_at in E as [Ex Bx]. exists (parents_head x), (parents_data x). split; [reflexivity|]. split; [exact Logic.I|]. rewrite app_length. cbn [length]. replace (length pre) with (Z.to_nat x) by (unfold zlen in Ex; lia). rewrite Nat.add_1_r. eapply meets_weaken; [|apply meets_parents; lia]. trivial.
  - intros a x _. apply dead_bind, dead_array.
  - exists ((c0 ++ c1) ++ parents_head dim). rewrite zfromto_snoc by lia. split; [rewrite flat_map_app, E; cbn [flat_map]; rewrite app_nil_r, <- !app_assoc; reflexivity|].
    eapply meets_ext; [intros s; symmetry; apply loop_over_last|]. eapply meets_bind; [exact M|intros; apply dead_bind, dead_array|]. cbv beta. replace (length (zfromto 0 dim)) with (Z.to_nat dim) by (pose proof (zlen_zfromto 0 dim ltac:(lia)) as L; unfold zlen in L; lia). apply meets_parents. lia.
Qed.
Lemma has_any_ok : has_any_parents m = Ok (some_parents m).
Proof.
  pose proof (s_dim m Hs) as D. destruct (s_four m Hs) as (_ & _ & _ & _ & F). pose proof (s_above m Hs) as Ab. unfold has_any_parents, some_parents.
  destruct (o_parents m) as [|p0 [|p1 [|p2 [|p3 [|p4 l]]]]]; cbn in F; try discriminate. assert (dim = 1 \/ dim = 2 \/ dim = 3) as [E|[E|E]] by lia; rewrite E in *.
  - destruct (Ab 2 ltac:(lia)) as (_ & _ & _ & _ & A2). destruct (Ab 3 ltac:(lia)) as (_ & _ & _ & _ & A3). cbn in A2, A3. injection A2 as ->. injection A3 as ->. cbn. reflexivity.
  - destruct (Ab 3 ltac:(lia)) as (_ & _ & _ & _ & A3). cbn in A3. injection A3 as ->. cbn. reflexivity.
  - reflexivity.
Qed.

(** the whole file *)
Definition before_parents : list Z :=
  magic ++ put I8 (if k then 1 else 0) ++ meta_bytes m ++ put I32 (ne m 0) ++ flat_map (fun d => down_head z w m d ++ down_data z w m d) (zfromto 1 (dim + 1)) ++
  flat_map (dim_bytes z w m) (zfromto 0 (dim + 1)) ++ sets_bytes ++ put I8 (if some_parents m then 1 else 0).
Definition file_bytes : list Z := before_parents ++ if some_parents m then flat_map (fun d => parents_head d ++ parents_data d) (zfromto 0 (dim + 1)) else [].
Lemma written : write_mesh z w m = Ok file_bytes.
Proof.
  pose proof (s_dim m Hs) as D. destruct (ne_at w r m Hs 0 ltac:(lia)) as (_ & G & N). unfold write_mesh. rewrite (write_meta_bytes w r m Hs). cbn [bind]. rewrite (nents_ok w r m Hs _ 0 (ne m 0)) by (try reflexivity; try assumption; lia). rewrite (mdim_ok w r m Hs). cbn [bind].
  rewrite (write_downs z w r m Hz Hs). cbn [bind]. rewrite (write_dims z w r m Hz Hs). cbn [bind]. rewrite has_any_ok. cbn [bind]. rewrite !write_value_put, write_sets_bytes, !concat_flat. unfold file_bytes, before_parents. destruct (some_parents m).
  - rewrite (mapM_map_ok _ (fun d => parents_head d ++ parents_data d)) by (intros d Hd; apply in_zfromto in Hd; apply write_parents_bytes; lia). cbn [bind]. rewrite concat_flat. rewrite <- !app_assoc. reflexivity.
  - cbn [bind concat]. rewrite <- !app_assoc. reflexivity.
Qed.
Lemma full_nents : partial (t_nents (o_t m)) (S (Z.to_nat dim)) (-1) = t_nents (o_t m) /\ partial (o_down m) (S (Z.to_nat dim)) None = o_down m /\ partial (t_tags (o_t m)) (S (Z.to_nat dim)) [] = t_tags (o_t m) /\ partial (owner_list m) (S (Z.to_nat dim)) None = owner_list m /\ partial parents_list (S (Z.to_nat dim)) None = parents_list.
Proof.
  pose proof (s_dim m Hs) as D. destruct (s_four m Hs) as (F1 & F2 & F3 & F4 & F5). pose proof (s_above m Hs) as Ab.
  assert (forall A (l : list A) dflt, length l = 4%nat -> (forall d, dim < d <= 3 -> zget l d = Ok dflt) -> partial l (S (Z.to_nat dim)) dflt = l) as K.
  { intros A l dflt L Hl. apply partial_all; [lia|]. intros i Hi. specialize (Hl (Z.of_nat i) ltac:(lia)). apply zget_ok in Hl as [_ Hl]. rewrite Nat2Z.id in Hl. exact Hl. }
  split; [|split; [|split; [|split]]].
  - apply K; [exact F1|apply Ab].
  - apply K; [exact F3|apply Ab].
  - apply K; [exact F2|apply Ab].
  - apply K; [apply (owner_list_length m Hs)|]. intros d Hd. unfold owner_list. destruct (1 <? o_comm_size m); [apply Ab, Hd|]. assert (d = 2 \/ d = 3) as [->| ->] by lia; reflexivity.
  - apply K; [reflexivity|]. intros d Hd. unfold parents_list, explicit_parents. rewrite zget_map. assert (zget [0; 1; 2; 3] d = Ok d) as -> by (assert (d = 2 \/ d = 3) as [->| ->] by lia; reflexivity). cbn [bind]. destruct (Z.leb_spec d dim); [lia|]. reflexivity.
Qed.
Lemma as_read_parents : some_parents m = true -> as_read m = parents_stage (S (Z.to_nat dim)).
Proof.
  intros E. destruct full_nents as (_ & _ & _ & _ & U5). unfold as_read, parents_stage. rewrite U5, E. unfold P_File3.stage, owner_list, parents_list, inhabited_sets, o_dim. destruct (o_t m) as [a b c]. reflexivity.
Qed.
Lemma last_parents_pa : last_parents m = pa dim.
Proof. pose proof (s_dim m Hs). unfold last_parents. pose proof (parents_list_at dim ltac:(lia)) as E. apply nth_error_nth with (d := None) in E. unfold parents_list in E. rewrite E. reflexivity. Qed.
Lemma codes_lost_last : forall x, codes_lost dim x -> some_parents m = true -> True /\ exists c, zlen c = zlen (snd (last_parents m)) /\ x = with_last_codes m c.
Proof.
  intros x (c & Hc & ->) E. split; [exact Logic.I|]. exists c. rewrite last_parents_pa. split; [exact Hc|]. unfold with_last_codes. rewrite (as_read_parents E), last_parents_pa. destruct full_nents as (_ & _ & _ & _ & U5). rewrite U5. reflexivity.
Qed.
Lemma meets_magic : meets k read_magic magic [] tt nothing.
Proof.
  split; [|split].
  - intros rest. unfold read_magic. change 2 with (zlen magic). rewrite app_nil_r, stream_read_all. reflexivity.
  - intros p Hp. left. unfold read_magic. change 2 with (zlen magic). destruct (stream_read_cut _ _ Hp) as [E L]. rewrite E. destruct p as [|a [|b [|c p]]]; try reflexivity; cbn in L; lia.
  - intros q Hq. destruct (not_cut_nil _ Hq).
Qed.
Definition last_data : list Z := if some_parents m then parents_data dim else [].
Lemma mesh_meets : exists c0, file_bytes = c0 ++ last_data /\
  meets k (read_mesh z h r (new_omesh (o_comm_size m) (o_comm_rank m)) 9) c0 last_data (as_read m) (fun x => some_parents m = true /\ exists c, zlen c = zlen (snd (last_parents m)) /\ x = with_last_codes m c).
Proof.
  pose proof (s_dim m Hs) as D. destruct full_nents as (U1 & U2 & U3 & U4 & U5). destruct (s_four m Hs) as (F1 & F2 & F3 & F4 & F5). destruct (ne_at w r m Hs 0 ltac:(lia)) as (En & G & N).
  destruct (meets_downs z h w r m Hz Hs Hk) as (d0 & d1 & Ed & Md). destruct (meets_dims z h w r m Hz Hs Hk) as (e0 & e1 & Ee & Me). destruct meets_parents_all as (p0 & Ep & Mp).
  assert (as_read m = if some_parents m then parents_stage (S (Z.to_nat dim)) else set_stage (inhabited_sets (o_sets m))) as ->.
  { unfold as_read, parents_stage, set_stage. rewrite U5. unfold P_File3.stage, owner_list, parents_list, inhabited_sets, o_dim. destruct (o_t m) as [a b c]. cbn [t_dim t_nents t_tags]. destruct (some_parents m); reflexivity. }
  exists (magic ++ put I8 (if k then 1 else 0) ++ meta_bytes m ++ put I32 (ne m 0) ++ (d0 ++ d1) ++ (e0 ++ e1) ++ sets_bytes ++ put I8 (if some_parents m then 1 else 0) ++ if some_parents m then p0 else []). split.
  { unfold file_bytes, before_parents, last_data. rewrite Ed, Ee, Ep, <- !app_assoc. destruct (some_parents m); cbn [app]; rewrite <- ?app_assoc; reflexivity. }
  unfold read_mesh. eapply meets_full; [apply meets_magic|]. change (9 =? -1) with false. cbv iota zeta.
  match goal with |- meets ?k (rbind (ret ?v) ?f) ?b0 ?b1 ?w ?Q => change (meets k (f v) b0 b1 w Q); cbv beta end. change (check (1 <=? 9)) with (Ok tt). step. change (check (9 <=? latest_version)) with (Ok tt). step.
  eapply meets_full; [apply meets_used; destruct k; cbn; lia|]. assert (negb ((if k then 1 else 0) =? 0) = k) as -> by (destruct k; reflexivity).
  assert ((if has_zlib r then ret tt else lift (check (negb k))) = lift (Ok tt)) as ->. { destruct (has_zlib r); [reflexivity|]. destruct k eqn:Ek; [discriminate (Hk eq_refl)|reflexivity]. } step.
  eapply meets_full; [apply (meets_meta w r m Hs)|]. eapply meets_full; [apply meets_used; cbn; lia|].
  assert (M_File.with_nents (stage [-1; -1; -1; -1] nones [[]; []; []; []] nones [] nones) 0 (ne m 0) = Ok (down_stage m 1)) as ->.
  { unfold M_File.with_nents, down_stage. cbn. unfold P_File3.stage, with_t. cbn. do 3 f_equal; [|]. - f_equal. destruct (t_nents (o_t m)) as [|n0 [|n1 [|n2 [|n3 [|n4 l]]]]]; cbn in F1; try discriminate. cbn in En. injection En as ->. reflexivity.
    - pose proof (s_vert_down m Hs) as V. destruct (o_down m) as [|n0 [|n1 [|n2 [|n3 [|n4 l]]]]]; cbn in F3; try discriminate. cbn in V. injection V as ->. reflexivity. }
  step. assert (mdim (o_t (down_stage m 1)) = Ok dim) as ->. { unfold mdim. cbn [down_stage P_File3.stage o_t t_dim]. destruct (Z.leb_spec 0 dim); [|lia]. destruct (Z.leb_spec dim 3); [|lia]. reflexivity. } step.
  eapply meets_bind; [exact Md| |]. { intros x _. rewrite zfromto_cons by lia. cbn [loop_over]. apply dead_bind, dead_bind, dead_dim. }
  assert (down_stage m (S (Z.to_nat dim)) = dim_stage m 0) as ->. { unfold down_stage, dim_stage. rewrite U1, U2, !partial_0, F2, (owner_list_length m Hs). reflexivity. }
  eapply meets_bind; [exact Me| |]. { intros x _. change (8 <=? 9) with true. cbv iota. apply dead_bind, dead_sets. }
  assert (dim_stage m (S (Z.to_nat dim)) = set_stage []) as -> by (unfold dim_stage, set_stage; rewrite U3, U4; reflexivity).
  change (8 <=? 9) with true. change (9 <=? 9) with true. cbv iota. eapply meets_full; [apply meets_sets|]. eapply meets_full; [apply meets_used; destruct (some_parents m); cbn; lia|].
  unfold last_data. destruct (some_parents m) eqn:Esp.
  - change (1 =? 0) with false. cbv iota. assert (set_stage (inhabited_sets (o_sets m)) = parents_stage 0) as -> by (unfold set_stage, parents_stage; rewrite partial_0; reflexivity). eapply meets_weaken; [|exact Mp]. intros x Hx. split; [reflexivity|]. apply (codes_lost_last x Hx Esp).
  - change (0 =? 0) with true. cbv iota. apply meets_ok.
Qed.
End mesh.
