(** Round trips, truncation and refusals of binary files. *)
From Verif Require Import Prelude M_Sort M_Template M_Adj M_Parents M_Tags M_File S_File P_File P_File2 P_File3 P_File4.
Local Open Scope Z_scope.

Lemma value_back w r t v rest : in_range t v -> read_value r t (needs_swapping r) (mk_istream (write_value w t v (needs_swapping w) ++ rest) true) = Ok (Some v, mk_istream rest true).
Proof. intros H. rewrite write_value_put. apply read_value_exact, H. Qed.
Lemma array_back z w r t a : zlib_works z -> array_of t a -> (has_zlib w = true -> has_zlib r = true) ->
  exists b, write_array z w t a (has_zlib w) (needs_swapping w) = Ok b /\
    forall h rest, read_array z h r t (has_zlib w) (needs_swapping r) (mk_istream (b ++ rest) true) = Ok (a, mk_istream rest true).
Proof. intros Hz Ha Hk. eexists. split; [apply write_array_bytes; assumption|]. intros h rest. apply (meets_array z h r t (has_zlib w) a Hz Ha Hk). Qed.
Lemma string_back w r n rest : name_ok n -> read_string r (needs_swapping r) (mk_istream (write_string w n (needs_swapping w) ++ rest) true) = Ok (n, mk_istream rest true).
Proof. intros H. rewrite write_string_bytes by exact H. apply (meets_string true r n H). Qed.

Lemma mesh_back z w r m : zlib_works z -> storable m -> (has_zlib w = true -> has_zlib r = true) ->
  exists b, write_mesh z w m = Ok b /\
    forall h rest, read_mesh z h r (new_omesh (o_comm_size m) (o_comm_rank m)) 9 (mk_istream (b ++ rest) true) = Ok (as_read m, mk_istream rest true).
Proof.
  intros Hz Hs Hk. exists (file_bytes z w m). split; [apply (written z w r m Hz Hs)|]. intros h rest. destruct (mesh_meets z h w r m Hz Hs Hk) as (c0 & -> & M & _). apply M.
Qed.
Lemma file_bytes_same z w w' m : has_zlib w = has_zlib w' -> file_bytes z w m = file_bytes z w' m.
Proof.
  intros E. unfold file_bytes, before_parents, down_head, down_data, dim_bytes, tag_head, tag_data, owner_bytes, parents_head, parents_data. rewrite E. reflexivity.
Qed.
Lemma mesh_same_bytes z w w' m : zlib_works z -> storable m -> has_zlib w = has_zlib w' -> write_mesh z w m = write_mesh z w' m.
Proof. intros Hz Hs E. rewrite (written z w w m Hz Hs), (written z w' w' m Hz Hs). f_equal. apply file_bytes_same, E. Qed.

Lemma mesh_cut z h w r m b p : zlib_works z -> storable m -> (has_zlib w = true -> has_zlib r = true) -> write_mesh z w m = Ok b -> cut_short p b ->
  let o := read_mesh z h r (new_omesh (o_comm_size m) (o_comm_rank m)) 9 (mk_istream p true) in
  o = UB \/ (has_zlib w = true /\ o = Abort) \/
  (some_parents m = true /\ exists c, zlen c = zlen (snd (last_parents m)) /\ o = Ok (with_last_codes m c, mk_istream [] false)).
Proof.
  intros Hz Hs Hk E Hp. rewrite (written z w r m Hz Hs) in E. injection E as <-. destruct (mesh_meets z h w r m Hz Hs Hk) as (c0 & Eb & _ & C0 & C1). rewrite Eb in Hp.
  apply cut_app in Hp as [Hp|(q & -> & Hq)].
  - destruct (C0 p Hp) as [K|K]; [left; exact K|right; left; exact K].
  - destruct (C1 q Hq) as [(v & (Hsp & c & Hc & ->) & K)|K]; [|right; left; exact K]. right. right. split; [exact Hsp|]. exists c. split; [exact Hc|exact K].
Qed.
Lemma cut_zlen p b : cut_short p b -> zlen p < zlen b.
Proof. intros (q & Hq & ->). rewrite zlen_app. pose proof (zlen_nonneg q). destruct q; [congruence|]. rewrite zlen_cons. pose proof (zlen_nonneg q). lia. Qed.
Lemma mesh_cut_plain z h w r m b p : zlib_works z -> storable m -> has_zlib w = false -> write_mesh z w m = Ok b -> cut_short p b ->
  let o := read_mesh z h r (new_omesh (o_comm_size m) (o_comm_rank m)) 9 (mk_istream p true) in
  if some_parents m && (zlen b - zlen p <=? zlen (snd (last_parents m)))
  then exists c, zlen c = zlen (snd (last_parents m)) /\ o = Ok (with_last_codes m c, mk_istream [] false)
  else o = UB.
Proof.
  intros Hz Hs Hw E Hp o. assert (has_zlib w = true -> has_zlib r = true) as Hk by (rewrite Hw; discriminate). rewrite (written z w r m Hz Hs) in E. injection E as <-. destruct (mesh_meets z h w r m Hz Hs Hk) as (c0 & Eb & _ & C0 & C1). rewrite Eb in *.
  assert (last_data z w m = if some_parents m then put_array I8 (snd (last_parents m)) else []) as El. { unfold last_data, parents_data, data_bytes. rewrite Hw, (last_parents_pa w r _ Hs). reflexivity. }
  assert (some_parents m = true -> zlen (last_data z w m) = zlen (snd (last_parents m))) as Ll. { intros Sp. rewrite El, Sp, put_array_zlen. cbn [size_of]. lia. }
  apply cut_app in Hp as [Hp|(q & -> & Hq)].
  - pose proof (cut_zlen _ _ Hp) as L. destruct (C0 p Hp) as [K|(K & _)]; [|congruence]. destruct (some_parents m); [|exact K]. rewrite zlen_app, Ll by reflexivity. destruct (Z.leb_spec (zlen c0 + zlen (snd (last_parents m)) - zlen p) (zlen (snd (last_parents m)))); [lia|]. exact K.
  - destruct (some_parents m) eqn:Sp; [|rewrite El in Hq; destruct (not_cut_nil _ Hq)]. destruct (C1 q Hq) as [(v & (_ & c & Hc & ->) & K)|(K & _)]; [|congruence]. rewrite !zlen_app, Ll by reflexivity. pose proof (zlen_nonneg q). destruct (Z.leb_spec (zlen c0 + zlen (snd (last_parents m)) - (zlen c0 + zlen q)) (zlen (snd (last_parents m)))); [|lia]. exists c. split; [exact Hc|exact K].
Qed.

(** refusals *)
Definition refuses {A} (R : reader A) (b : list Z) : Prop := forall rest, R (mk_istream (b ++ rest) true) = Abort.
Lemma refuses_then {A B} (R : reader A) (f : A -> reader B) b v c : exact_on R b v -> refuses (f v) c -> refuses (rbind R f) (b ++ c).
Proof. intros H1 H2 rest. unfold rbind. rewrite <- app_assoc, H1. apply H2. Qed.
Lemma refuses_first {A B} (R : reader A) (f : A -> reader B) b : refuses R b -> refuses (rbind R f) b.
Proof. intros H rest. unfold rbind. rewrite H. reflexivity. Qed.
Lemma refuses_more {A} (R : reader A) b c : refuses R b -> refuses R (b ++ c).
Proof. intros H rest. rewrite <- app_assoc. apply H. Qed.
Lemma exact_used m t v : in_range t v -> exact_on (read_used m t (needs_swapping m)) (put t v) v.
Proof. intros H rest. destruct (meets_used true m t v H) as [E _]. rewrite app_nil_r in E. apply E. Qed.
Lemma exact_magic : exact_on read_magic magic tt.
Proof. intros rest. unfold read_magic. change 2 with (zlen magic). rewrite stream_read_all. reflexivity. Qed.
Ltac skip := match goal with |- refuses (rbind (lift (Ok ?v)) ?f) ?b => change (refuses (f v) b); cbv beta | |- refuses (rbind (ret ?v) ?f) ?b => change (refuses (f v) b); cbv beta end.
Lemma refuses_assoc {A B C} (R : reader A) (f : A -> reader B) (g : B -> reader C) b : refuses (rbind R (fun x => rbind (f x) g)) b -> refuses (rbind (rbind R f) g) b.
Proof. intros H rest. rewrite <- rbind_assoc. apply H. Qed.

Lemma mesh_no_zlib z h w r m b mesh rest : zlib_works z -> storable m -> has_zlib w = true -> has_zlib r = false -> write_mesh z w m = Ok b ->
  read_mesh z h r mesh 9 (mk_istream (b ++ rest) true) = Abort.
Proof.
  intros Hz Hs Hw Hr E. rewrite (written z w r m Hz Hs) in E. injection E as <-. revert rest. change (refuses (read_mesh z h r mesh 9) (file_bytes z w m)). unfold file_bytes, before_parents. rewrite <- !app_assoc.
  unfold read_mesh. eapply refuses_then; [apply exact_magic|]. change (9 =? -1) with false. cbv iota zeta. skip. change (check (1 <=? 9)) with (Ok tt). skip. change (check (9 <=? latest_version)) with (Ok tt). skip. rewrite Hw. eapply refuses_then; [apply exact_used; cbn; lia|]. change (negb (1 =? 0)) with true. rewrite Hr. intros rest. reflexivity.
Qed.
Lemma mesh_wrong_comm z h w r m b size rank rest : zlib_works z -> storable m -> (has_zlib w = true -> has_zlib r = true) -> write_mesh z w m = Ok b ->
  size <> o_comm_size m \/ rank <> o_comm_rank m ->
  read_mesh z h r (new_omesh size rank) 9 (mk_istream (b ++ rest) true) = Abort.
Proof.
  intros Hz Hs Hk E Hne. rewrite (written z w r m Hz Hs) in E. injection E as <-. revert rest. change (refuses (read_mesh z h r (new_omesh size rank) 9) (file_bytes z w m)). unfold file_bytes, before_parents. rewrite <- !app_assoc. pose proof (s_dim m Hs) as D. destruct (s_comm m Hs) as [C1 C2].
  unfold read_mesh. eapply refuses_then; [apply exact_magic|]. change (9 =? -1) with false. cbv iota zeta. skip. change (check (1 <=? 9)) with (Ok tt). skip. change (check (9 <=? latest_version)) with (Ok tt). skip. eapply refuses_then; [apply exact_used; destruct (has_zlib w); cbn; lia|].
  assert ((if has_zlib r then ret tt else lift (check (negb (negb ((if has_zlib w then 1 else 0) =? 0))))) = ret tt) as ->. { destruct (has_zlib r); [reflexivity|]. destruct (has_zlib w); [discriminate (Hk eq_refl)|reflexivity]. } skip.
  apply refuses_first. apply refuses_more. unfold meta_bytes, read_meta. change (7 <=? 9) with true. cbv iota. apply refuses_assoc. eapply refuses_then; [apply exact_used; destruct (o_family m); cbn; lia|]. apply refuses_assoc.
  assert (family_of_number (family_number (o_family m)) = Ok (o_family m)) as -> by (destruct (o_family m); reflexivity). skip. skip.
  eapply refuses_then; [apply exact_used; cbn; lia|]. unfold o_set_dim. cbn [o_dim with_family o_t t_dim new_omesh]. change (-1 =? -1) with true. unfold check. destruct (Z.leb_spec 1 (o_dim m)); [|lia]. destruct (Z.leb_spec (o_dim m) 3); [|lia]. cbn [bind]. skip.
  eapply refuses_then; [apply exact_used; assumption|]. cbn [o_comm_size with_t with_family new_omesh]. destruct (Z.eqb_spec size (o_comm_size m)) as [->|_]; [|intros rest; reflexivity]. skip.
  eapply refuses_then; [apply exact_used; assumption|]. cbn [o_comm_rank with_t with_family new_omesh]. destruct (Z.eqb_spec rank (o_comm_rank m)) as [->|_]; [destruct Hne; congruence|]. intros rest; reflexivity.
Qed.

(** reading and writing again loses nothing more *)
Lemma increasing_tail a l : increasing (a :: l) -> increasing l.
Proof. destruct l; [intros; exact Logic.I|]. intros H. apply H. Qed.
Lemma increasing_cons a l : increasing l -> (forall b, In b l -> name_ltb a b = true) -> increasing (a :: l).
Proof. destruct l as [|b l]; [intros; exact Logic.I|]. intros H1 H2. split; [apply H2; left; reflexivity|exact H1]. Qed.
Lemma increasing_filter {A} (f : A -> list Z) (g : A -> bool) l : increasing (map f l) -> increasing (map f (filter g l)).
Proof.
  induction l as [|a l IH]; intros H; [exact Logic.I|]. cbn [filter]. cbn [map] in H. assert (increasing (map f (filter g l))) as K by (apply IH, (increasing_tail _ _ H)). destruct (g a); [|exact K]. cbn [map]. apply increasing_cons; [exact K|]. intros b Hb. apply in_map_iff in Hb as (x & <- & Hx). apply filter_In in Hx as [Hx _].
  apply in_split in Hx as (l1 & l2 & ->). rewrite map_app in H. cbn [map] in H. apply (increasing_before (f a :: map f l1) (f x) (map f l2)); [exact H|left; reflexivity].
Qed.
Lemma filter_shorter {A} (g : A -> bool) l : (length (filter g l) <= length l)%nat.
Proof. induction l as [|a l IH]; [apply le_n|]. cbn [filter length]. destruct (g a); cbn [length]; lia. Qed.
Lemma zget_nones {A} d (o : option A) : zget [@None A; None; None; None] d = Ok o -> o = None.
Proof. intros H. apply zget_In in H. cbn in H. intuition congruence. Qed.
Lemma as_read_storable m : storable m -> storable (as_read m).
Proof.
  intros Hs. pose proof (s_dim m Hs) as D. destruct (s_four m Hs) as (F1 & F2 & F3 & F4 & F5). split; try apply Hs.
  - cbn [as_read o_t o_down o_owners o_parents]. repeat match goal with |- _ /\ _ => split end; try assumption; [destruct (1 <? o_comm_size m); [assumption|reflexivity]|destruct (some_parents m); reflexivity].
  - cbn [as_read o_comm_size o_t o_owners]. intros L. destruct (Z.ltb_spec 1 (o_comm_size m)); [|lia]. apply (s_owners m Hs L).
  - intros d o Hd. change (o_dim (as_read m)) with (o_dim m) in Hd. cbn [as_read o_parents]. destruct (some_parents m).
    + destruct (pa_at (mk_machine true true) (mk_machine true true) m Hs d Hd) as (_ & A1 & A2). intros E. change (explicit_parents m) with (parents_list m) in E. rewrite (zget_of _ d (Some (pa m d)) ltac:(lia) (parents_list_at (mk_machine true true) (mk_machine true true) m Hs d Hd)) in E. injection E as <-. intros i c Ei. injection Ei as Ei. rewrite Ei in A1, A2. split; assumption.
    + intros E i c Ei. apply zget_nones in E. congruence.
  - destruct (s_sets m Hs) as (S1 & S2 & S3). cbn [as_read o_sets]. split; [|split].
    + unfold countable in *. match goal with |- zlen (filter ?g _) <= _ => pose proof (filter_shorter g (o_sets m)) end. unfold zlen, class_set in *. lia.
    + rewrite Forall_forall in *. intros s Hin. apply filter_In in Hin as [Hin _]. apply S2, Hin.
    + apply increasing_filter, S3.
  - intros d Hd. change (o_dim (as_read m)) with (o_dim m) in Hd. destruct (s_above m Hs d Hd) as (A1 & A2 & A3 & A4 & A5). cbn [as_read o_t o_down o_owners o_parents]. assert (forall A, zget [@None A; None; None; None] d = Ok None) as Zn by (intros A; assert (d = 2 \/ d = 3) as [->| ->] by lia; reflexivity).
    repeat match goal with |- _ /\ _ => split end; try assumption; [destruct (1 <? o_comm_size m); [assumption|apply Zn]|]. destruct (some_parents m); [|apply Zn]. unfold explicit_parents. rewrite zget_map. assert (zget [0; 1; 2; 3] d = Ok d) as -> by (assert (d = 2 \/ d = 3) as [->| ->] by lia; reflexivity). cbn [bind]. destruct (Z.leb_spec d (o_dim m)); [lia|]. reflexivity.
Qed.
Lemma filter_twice {A} (g : A -> bool) l : filter g (filter g l) = filter g l.
Proof. induction l as [|a l IH]; [reflexivity|]. cbn [filter]. destruct (g a) eqn:E; [|exact IH]. cbn [filter]. rewrite E, IH. reflexivity. Qed.
Lemma as_read_again m : storable m -> as_read (as_read m) = as_read m.
Proof.
  intros Hs. pose proof (s_dim m Hs) as D. unfold as_read at 1. cbn [as_read o_comm_size o_comm_rank o_family o_parting o_nghost_layers o_hints o_t o_down o_owners o_sets]. rewrite filter_twice. unfold as_read at 3. f_equal; [destruct (1 <? o_comm_size m); reflexivity|].
  unfold some_parents at 1. cbn [as_read o_parents]. destruct (some_parents m) eqn:Sp; [|reflexivity].
  assert (existsb (fun o : option parents => match o with Some _ => true | None => false end) (explicit_parents m) = true) as ->. { apply existsb_exists. exists (Some (pa m (o_dim m))). split; [|reflexivity]. eapply nth_error_In. apply (parents_list_at (mk_machine true true) (mk_machine true true) m Hs). lia. }
  unfold explicit_parents at 1. change (o_dim (as_read m)) with (o_dim m). cbn [as_read o_parents o_t]. rewrite Sp. apply map_ext_in. intros d Hd. destruct (Z.leb_spec d (o_dim m)) as [Hl|Hl]; [|reflexivity]. assert (0 <= d) as Hd0 by (cbn in Hd; lia).
  pose proof (parents_list_at (mk_machine true true) (mk_machine true true) m Hs d ltac:(lia)) as E. apply nth_error_nth with (d := None) in E. unfold parents_list in E. rewrite E. unfold pa, ne. destruct (nth (Z.to_nat d) (o_parents m) None); reflexivity.
Qed.
Lemma mesh_again z w r w' r' m : zlib_works z -> storable m -> (has_zlib w = true -> has_zlib r = true) -> (has_zlib w' = true -> has_zlib r' = true) ->
  exists b b', write_mesh z w m = Ok b /\ write_mesh z w' (as_read m) = Ok b' /\
    forall h rest, read_mesh z h r (new_omesh (o_comm_size m) (o_comm_rank m)) 9 (mk_istream (b ++ rest) true) = Ok (as_read m, mk_istream rest true) /\
                   read_mesh z h r' (new_omesh (o_comm_size m) (o_comm_rank m)) 9 (mk_istream (b' ++ rest) true) = Ok (as_read m, mk_istream rest true).
Proof.
  intros Hz Hs Hk Hk'. destruct (mesh_back z w r m Hz Hs Hk) as (b & Eb & Rb). destruct (mesh_back z w' r' (as_read m) Hz (as_read_storable m Hs) Hk') as (b' & Eb' & Rb'). exists b, b'. split; [exact Eb|]. split; [exact Eb'|]. intros h rest. split; [apply Rb|]. rewrite (as_read_again m Hs) in Rb'. apply Rb'.
Qed.
