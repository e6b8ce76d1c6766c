From Verif Require Import Prelude S_Scan M_SharedAlloc S_SharedAlloc.
Local Open Scope Z_scope.

(** * counting *)
Definition b2z (b : bool) : Z := if b then 1 else 0.
Definition cnt {A} (P : A -> bool) (l : list A) : Z := zlen (filter P l).
Lemma cnt_cons {A} (P : A -> bool) x l : cnt P (x :: l) = b2z (P x) + cnt P l.
Proof. unfold cnt. cbn. destruct (P x); cbn [b2z]; [rewrite zlen_cons|]; lia. Qed.
Lemma cnt_app {A} (P : A -> bool) l m : cnt P (l ++ m) = cnt P l + cnt P m.
Proof. unfold cnt. rewrite filter_app, zlen_app. reflexivity. Qed.
Lemma cnt_set {A} (P : A -> bool) l : forall h o v, nth_error l h = Some o -> cnt P (list_set l h v) = cnt P l - b2z (P o) + b2z (P v).
Proof.
  induction l as [|x l IH]; intros [|h] o v H; cbn in H; try discriminate; cbn [list_set]; rewrite !cnt_cons.
  - injection H as ->. lia.
  - rewrite (IH _ _ v H). lia.
Qed.
Lemma cnt_pos {A} (P : A -> bool) l h o : nth_error l h = Some o -> P o = true -> 1 <= cnt P l.
Proof.
  revert h. induction l as [|x l IH]; intros [|h] H Ho; cbn in H; try discriminate; rewrite cnt_cons.
  - injection H as ->. rewrite Ho. unfold cnt. pose proof (zlen_nonneg (filter P l)). cbn [b2z]. lia.
  - specialize (IH _ H Ho). destruct (P x); cbn [b2z]; lia.
Qed.
Lemma cnt_nonneg {A} (P : A -> bool) l : 0 <= cnt P l. Proof. apply zlen_nonneg. Qed.

(** * the heap *)
Definition view (s : mstate) (k : nat) : option (option (Z * Z)) :=
  option_map (option_map (fun r => (a_size r, a_use_count r))) (nth_error (heap s) k).
Definition live_bytes (sizes : list Z) (u : nat -> Z) : Z :=
  zsum (map (fun k => if u k =? 0 then 0 else nth k sizes 0) (seq 0 (length sizes))).

Record RH (s : mstate) (sizes : list Z) (u : nat -> Z) : Prop := {
  rh_len : length (heap s) = length sizes;
  rh_view : forall k sz, nth_error sizes k = Some sz -> 0 <= u k /\ view s k = Some (if u k =? 0 then None else Some (sz, u k));
  rh_freed : NoDup (freed s) /\ forall k, In k (freed s) <-> (k < length sizes)%nat /\ u k = 0;
  rh_total : forall g, ga s = Some g -> g_total g = live_bytes sizes u }.

Lemma deref_view s sizes u k sz : RH s sizes u -> nth_error sizes k = Some sz -> u k <> 0 ->
  exists r, deref s k = Ok r /\ a_size r = sz /\ a_use_count r = u k.
Proof.
  intros H Hk Hu. destruct (rh_view _ _ _ H k sz Hk) as [_ V]. unfold view in V. unfold deref.
  destruct (Z.eqb_spec (u k) 0); [contradiction|]. destruct (nth_error (heap s) k) as [[r|]|]; cbn in V; try discriminate. injection V as V1 V2. eauto.
Qed.

Lemma view_set s k r' j : (k < length (heap s))%nat -> view (set_heap s (list_set (heap s) k r')) j =
  if (j =? k)%nat then Some (option_map (fun r => (a_size r, a_use_count r)) r') else view s j.
Proof.
  intros H. unfold view, set_heap. cbn [heap]. destruct (Nat.eqb_spec j k) as [->|Hne].
  - rewrite list_set_nth_eq by exact H. reflexivity.
  - rewrite list_set_nth_ne by lia. reflexivity.
Qed.

(** storing a record with the same size and count *)
Lemma store_links s a r r0 s' : store s a r = Ok s' -> deref s a = Ok r0 -> a_size r = a_size r0 -> a_use_count r = a_use_count r0 ->
  (forall k, view s' k = view s k) /\ length (heap s') = length (heap s) /\ ga s' = ga s /\ freed s' = freed s /\ handles s' = handles s /\ entering_parallel s' = entering_parallel s.
Proof.
  intros E Hd H1 H2. unfold store in E. rewrite Hd in E. cbn in E. injection E as <-.
  assert (a < length (heap s))%nat as Ha. { unfold deref in Hd. apply nth_error_Some. destruct (nth_error (heap s) a); congruence. }
  split; [|cbn; rewrite list_set_length; auto 10].
  intros k. rewrite view_set by exact Ha. destruct (Nat.eqb_spec k a) as [->|]; [|reflexivity]. cbn. unfold deref in Hd. unfold view.
  destruct (nth_error (heap s) a) as [[r1|]|]; try discriminate. injection Hd as ->. cbn. congruence.
Qed.

Lemma live_bytes_ext sizes u u' : (forall k, (k < length sizes)%nat -> (u k =? 0) = (u' k =? 0)) -> live_bytes sizes u = live_bytes sizes u'.
Proof.
  intros H. unfold live_bytes. f_equal. apply map_ext_in. intros k Hk. apply in_seq in Hk. rewrite H by lia. reflexivity.
Qed.
Lemma zsum_app' l m : zsum (l ++ m) = zsum l + zsum m.
Proof. unfold zsum. induction l; cbn [app fold_right]; lia. Qed.
Lemma live_bytes_delete sizes u u' a sz : nth_error sizes a = Some sz -> u a <> 0 -> u' a = 0 -> (forall k, k <> a -> u' k = u k) ->
  live_bytes sizes u' = live_bytes sizes u - sz.
Proof.
  intros Ha Hu Hu' He. unfold live_bytes.
  assert (forall l, NoDup l -> zsum (map (fun k => if u' k =? 0 then 0 else nth k sizes 0) l) =
    zsum (map (fun k => if u k =? 0 then 0 else nth k sizes 0) l) - (if in_dec Nat.eq_dec a l then sz else 0)) as K.
  { induction 1 as [|k l Hk Hn IH]; [reflexivity|]. unfold zsum in *. cbn [map fold_right]. rewrite IH.
    destruct (Nat.eq_dec k a) as [->|Hne].
    - rewrite Hu', Z.eqb_refl. destruct (Z.eqb_spec (u a) 0); [contradiction|]. rewrite (nth_error_nth _ _ 0 Ha).
      destruct (in_dec Nat.eq_dec a l); [contradiction|]. destruct (in_dec Nat.eq_dec a (a :: l)) as [|C]; [lia|exfalso; apply C; left; reflexivity].
    - rewrite He by exact Hne. destruct (in_dec Nat.eq_dec a l) as [i|i], (in_dec Nat.eq_dec a (k :: l)) as [i'|i']; try lia.
      + exfalso. apply i'. right. exact i.
      + exfalso. destruct i' as [i'|i']; [congruence|contradiction]. }
  rewrite K by apply seq_NoDup. destruct (in_dec Nat.eq_dec a (seq 0 (length sizes))) as [|C]; [lia|]. exfalso. apply C, in_seq.
  assert (a < length sizes)%nat by (apply nth_error_Some; congruence). lia.
Qed.
Lemma live_bytes_new sizes u sz u' : u' (length sizes) = 1 -> (forall k, k <> length sizes -> u' k = u k) ->
  live_bytes (sizes ++ [sz]) u' = live_bytes sizes u + sz.
Proof.
  intros H1 H2. unfold live_bytes. rewrite app_length, Nat.add_1_r, seq_S, map_app, zsum_app'. f_equal.
  - f_equal. apply map_ext_in. intros k Hk. apply in_seq in Hk. rewrite H2 by lia. rewrite app_nth1 by lia. reflexivity.
  - cbn. rewrite H1. cbn. rewrite app_nth2, Nat.sub_diag by lia. unfold zsum. cbn. lia.
Qed.

Definition upd_u (u : nat -> Z) (a : nat) (v : Z) : nat -> Z := fun k => if (k =? a)%nat then v else u k.

(** changing the count of a live record *)
Lemma store_count s sizes u a sz c s' r : RH s sizes u -> nth_error sizes a = Some sz -> u a <> 0 -> c <> 0 -> 0 <= c ->
  deref s a = Ok r -> store s a (with_count r c) = Ok s' ->
  RH s' sizes (upd_u u a c) /\ ga s' = ga s /\ handles s' = handles s /\ entering_parallel s' = entering_parallel s.
Proof.
  intros H Ha Hu Hc Hc0 Hd E. destruct (deref_view s sizes u a sz H Ha Hu) as (r' & Hd' & Hs & Hcnt). rewrite Hd in Hd'. injection Hd' as <-.
  unfold store in E. rewrite Hd in E. cbn in E. injection E as <-.
  assert (a < length (heap s))%nat as Hal by (rewrite (rh_len _ _ _ H); apply nth_error_Some; congruence).
  split; [|auto]. constructor.
  - cbn. rewrite list_set_length. apply (rh_len _ _ _ H).
  - intros k sk Hk. destruct (rh_view _ _ _ H k sk Hk) as [B V]. rewrite view_set by exact Hal. unfold upd_u. destruct (Nat.eqb_spec k a) as [->|Hne].
    + split; [exact Hc0|]. destruct (Z.eqb_spec c 0); [contradiction|]. cbn. rewrite Ha in Hk. injection Hk as ->. rewrite Hs. reflexivity.
    + split; [exact B|exact V].
  - destruct (rh_freed _ _ _ H) as [N F]. split; [exact N|]. intros k. cbn [freed set_heap]. rewrite F. unfold upd_u.
    destruct (Nat.eqb_spec k a) as [->|]; [|tauto]. split; intros [? ?]; contradiction.
  - intros g Hg. cbn [ga set_heap] in Hg. rewrite (rh_total _ _ _ H g Hg). apply live_bytes_ext. intros k Hk. unfold upd_u.
    destruct (Nat.eqb_spec k a) as [->|]; [|reflexivity]. destruct (Z.eqb_spec (u a) 0), (Z.eqb_spec c 0); congruence.
Qed.

(** the destructor *)
Lemma delete_view s a s' r : delete_alloc s a = Ok s' -> deref s a = Ok r ->
  (forall k, k <> a -> view s' k = view s k) /\ view s' a = Some None /\ length (heap s') = length (heap s) /\
  freed s' = a :: freed s /\ handles s' = handles s /\ entering_parallel s' = entering_parallel s /\
  match ga s with
  | None => ga s' = None
  | Some g => exists g', ga s' = Some g' /\ g_total g' = g_total g - a_size r
  end.
Proof.
  intros E Hd. unfold delete_alloc in E. rewrite Hd in E. cbn [bind] in E. apply bind_ok in E as (s1 & E1 & E). injection E as <-.
  assert (a < length (heap s))%nat as Hal. { unfold deref in Hd. apply nth_error_Some. destruct (nth_error (heap s) a); congruence. }
  assert ((forall k, view s1 k = view s k) /\ length (heap s1) = length (heap s) /\ freed s1 = freed s /\ handles s1 = handles s /\ entering_parallel s1 = entering_parallel s /\
    match ga s with None => ga s1 = None | Some g => exists g', ga s1 = Some g' /\ g_total g' = g_total g - a_size r end) as (V & L & F & Hh & Hp & G).
  { destruct (ga s) as [g|] eqn:Eg; [|injection E1 as <-; auto 10].
    destruct (a_next r) as [next|]; [|discriminate]. destruct (a_prev r) as [prev|]; [|discriminate].
    apply bind_ok in E1 as (s2 & E2 & E1). apply bind_ok in E1 as (s3 & E3 & E1).
    assert ((forall k, view s2 k = view s k) /\ length (heap s2) = length (heap s) /\ freed s2 = freed s /\ handles s2 = handles s /\ entering_parallel s2 = entering_parallel s /\
      exists g', ga s2 = Some g' /\ g_total g' = g_total g) as (V2 & L2 & F2 & Hh2 & Hp2 & g2 & G2 & T2).
    { destruct next as [n|].
      - apply bind_ok in E2 as (rn & Hn & E2). destruct (store_links _ _ _ _ _ E2 Hn eq_refl eq_refl) as (A & B & C & D & E & F). rewrite C, Eg. repeat split; eauto.
      - injection E2 as <-. cbn. repeat split; eauto. }
    assert ((forall k, view s3 k = view s k) /\ length (heap s3) = length (heap s) /\ freed s3 = freed s /\ handles s3 = handles s /\ entering_parallel s3 = entering_parallel s /\
      exists g', ga s3 = Some g' /\ g_total g' = g_total g) as (V3 & L3 & F3 & Hh3 & Hp3 & g3 & G3 & T3).
    { destruct prev as [p|].
      - apply bind_ok in E3 as (rp & Hn & E3). destruct (store_links _ _ _ _ _ E3 Hn eq_refl eq_refl) as (A & B & C & D & E & F). rewrite C, G2. repeat split; eauto; congruence.
      - rewrite G2 in E3. injection E3 as <-. cbn. repeat split; eauto. }
    rewrite G3 in E1. injection E1 as <-. cbn. repeat split; eauto. eexists. split; [reflexivity|]. cbn. lia. }
  cbn [heap ga entering_parallel handles freed]. unfold view in *. cbn [heap]. rewrite list_set_length. split; [|split; [|split; [exact L|split; [f_equal; exact F|split; [exact Hh|split; [exact Hp|exact G]]]]]].
  - intros k Hk. rewrite list_set_nth_ne by lia. apply V.
  - rewrite list_set_nth_eq by lia. reflexivity.
Qed.

Lemma clear_null s h : (forall a, h <> HPtr a) -> clear s h = Ok s.
Proof. destruct h; cbn; auto. intros H. exfalso. eapply H. reflexivity. Qed.

Lemma clear_ptr s sizes u a sz s' : RH s sizes u -> nth_error sizes a = Some sz -> 1 <= u a -> clear s (HPtr a) = Ok s' ->
  RH s' sizes (upd_u u a (u a - 1)) /\ handles s' = handles s /\ entering_parallel s' = entering_parallel s /\ (ga s = None <-> ga s' = None).
Proof.
  intros H Ha Hu E. destruct (deref_view s sizes u a sz H Ha ltac:(lia)) as (r & Hd & Hs & Hc). cbn [clear] in E. rewrite Hd in E. cbn [bind] in E.
  apply bind_ok in E as (s1 & E1 & E). rewrite Hc in E, E1.
  destruct (Z.eqb_spec (u a - 1) 0) as [Hz|Hz].
  - assert (a < length (heap s))%nat as Hal by (rewrite (rh_len _ _ _ H); apply nth_error_Some; congruence).
    assert (s1 = set_heap s (list_set (heap s) a (Some (with_count r (u a - 1))))) as -> by (unfold store in E1; rewrite Hd in E1; cbn in E1; congruence).
    assert (deref (set_heap s (list_set (heap s) a (Some (with_count r (u a - 1))))) a = Ok (with_count r (u a - 1))) as Hd1.
    { unfold deref. cbn [heap set_heap]. rewrite list_set_nth_eq by exact Hal. reflexivity. }
    destruct (delete_view _ _ _ _ E Hd1) as (V & Va & L & F & Hh & Hp & G). cbn [ga set_heap heap handles freed entering_parallel a_size with_count] in *.
    split; [|split; [exact Hh|split; [exact Hp|]]].
    + constructor.
      * rewrite L, list_set_length. apply (rh_len _ _ _ H).
      * intros k sk Hk. destruct (rh_view _ _ _ H k sk Hk) as [B V0]. unfold upd_u. destruct (Nat.eqb_spec k a) as [->|Hne].
        -- split; [lia|]. rewrite Va, Hz. reflexivity.
        -- split; [exact B|]. rewrite V by exact Hne. rewrite view_set by exact Hal. rewrite (proj2 (Nat.eqb_neq _ _) Hne). exact V0.
      * destruct (rh_freed _ _ _ H) as [N Fr]. rewrite F. split.
        -- constructor; [|exact N]. rewrite Fr. lia.
        -- intros k. cbn [In]. rewrite Fr. unfold upd_u. destruct (Nat.eqb_spec k a) as [->|Hne].
           ++ split; [intros _; split; [rewrite <- (rh_len _ _ _ H); exact Hal|exact Hz]|auto].
           ++ split; [intros [C|C]; [congruence|exact C]|auto].
      * intros g Hg. destruct (ga s) as [g0|] eqn:Eg; [|congruence]. destruct G as (g' & G & T). rewrite G in Hg. injection Hg as ->.
        rewrite T, (rh_total _ _ _ H g0 Eg), Hs. symmetry. eapply live_bytes_delete; [exact Ha|lia|unfold upd_u; rewrite Nat.eqb_refl; exact Hz|].
        intros k Hk. unfold upd_u. rewrite (proj2 (Nat.eqb_neq _ _) Hk). reflexivity.
    + destruct (ga s) as [g0|]; [|tauto]. destruct G as (g' & -> & _). split; discriminate.
  - injection E as <-. destruct (store_count s sizes u a sz (u a - 1) s1 r H Ha ltac:(lia) Hz ltac:(lia) Hd E1) as (A & B & C & D).
    split; [exact A|]. split; [exact C|]. split; [exact D|]. rewrite B. tauto.
Qed.
Lemma clear_ptr_ok s sizes u a sz : RH s sizes u -> nth_error sizes a = Some sz -> 1 <= u a -> ga s = None -> exists s', clear s (HPtr a) = Ok s'.
Proof.
  intros H Ha Hu Hg. destruct (deref_view s sizes u a sz H Ha ltac:(lia)) as (r & Hd & Hs & Hc). cbn [clear]. rewrite Hd. cbn [bind].
  unfold store. rewrite Hd. cbn [bind]. rewrite Hc. destruct (u a - 1 =? 0); [|eauto].
  assert (a < length (heap s))%nat as Hal by (rewrite (rh_len _ _ _ H); apply nth_error_Some; congruence).
  unfold delete_alloc, deref. cbn [heap set_heap ga]. rewrite list_set_nth_eq by exact Hal. cbn [bind]. rewrite Hg. cbn [bind]. eauto.
Qed.

Lemma copy_ptr s sizes u a sz s' v : RH s sizes u -> nth_error sizes a = Some sz -> 1 <= u a -> entering_parallel s = false ->
  copy s (HPtr a) = Ok (s', v) ->
  v = HPtr a /\ RH s' sizes (upd_u u a (u a + 1)) /\ handles s' = handles s /\ entering_parallel s' = entering_parallel s /\ (ga s = None <-> ga s' = None).
Proof.
  intros H Ha Hu Hp E. destruct (deref_view s sizes u a sz H Ha ltac:(lia)) as (r & Hd & Hs & Hc). cbn [copy] in E. rewrite Hd in E. cbn [bind] in E. rewrite Hp in E.
  apply bind_ok in E as (s1 & E1 & E). injection E as <- <-. rewrite Hc in E1.
  destruct (store_count s sizes u a sz (u a + 1) s1 r H Ha ltac:(lia) ltac:(lia) ltac:(lia) Hd E1) as (A & B & C & D). rewrite B. split; [reflexivity|]. tauto.
Qed.

Lemma RH_ext s sizes u u' : RH s sizes u -> (forall k, (k < length sizes)%nat -> u k = u' k) -> RH s sizes u'.
Proof.
  intros [A B C D] H. constructor.
  - exact A.
  - intros k sz Hk. rewrite <- H by (apply nth_error_Some; congruence). apply B, Hk.
  - destruct C as [N F]. split; [exact N|]. intros k. rewrite F. split; intros [Hk E]; [rewrite <- H by exact Hk|rewrite H by exact Hk]; auto.
  - intros g Hg. rewrite (D g Hg). apply live_bytes_ext. intros k Hk. rewrite H by exact Hk. reflexivity.
Qed.
Lemma RH_handles s sizes u hs : RH s sizes u -> RH (set_handles s hs) sizes u.
Proof. intros [A B C D]. constructor; auto. Qed.

(** * the relation between model and ideal state *)
Definition hrel (h : option handle) (t : target) : Prop :=
  match t with
  | Refers k => h = Some (HPtr k)
  | Nothing => exists v, h = Some v /\ forall a, v <> HPtr a
  | Gone => h = None
  end.
Record R (s : mstate) (i : ideal) : Prop := {
  r_heap : RH s (made i) (users i);
  r_par : entering_parallel s = par i;
  r_vars : Forall2 hrel (handles s) (vars i);
  r_range : forall k, In (Refers k) (vars i) -> (k < length (made i))%nat }.

Lemma Forall2_nth {A B} (P : A -> B -> Prop) l m : Forall2 P l m -> forall k y, nth_error m k = Some y -> exists x, nth_error l k = Some x /\ P x y.
Proof.
  induction 1 as [|x y l m H _ IH]; intros [|k] z Hz; cbn in *; try discriminate; [injection Hz as <-; eauto|auto].
Qed.
Lemma Forall2_set {A B} (P : A -> B -> Prop) l m : Forall2 P l m -> forall k x y, P x y -> Forall2 P (list_set l k x) (list_set m k y).
Proof. induction 1 as [|x y l m H F IH]; intros [|k] x' y' H'; cbn; constructor; auto. Qed.

Lemma value_nth i h : value i h <> Gone -> nth_error (vars i) h = Some (value i h).
Proof.
  unfold value. intros H. destruct (nth_error (vars i) h) as [t|] eqn:E.
  - rewrite (nth_error_nth _ _ Gone E). reflexivity.
  - exfalso. apply H. apply nth_overflow. apply nth_error_None. exact E.
Qed.
Lemma R_var s i h : R s i -> value i h <> Gone -> exists v, var s h = Ok v /\ hrel (Some v) (value i h).
Proof.
  intros HR Hv. destruct (Forall2_nth _ _ _ (r_vars _ _ HR) h _ (value_nth i h Hv)) as (x & Hx & Hr). unfold var. rewrite Hx.
  destruct (value i h) as [k| |]; cbn in *; [subst x; eauto|destruct Hr as (v & -> & Hr); eauto|contradiction].
Qed.
Lemma In_list_set {A} (l : list A) : forall k x y, In y (list_set l k x) -> y = x \/ In y l.
Proof.
  induction l as [|z l IH]; intros [|k] x y H; cbn in *; [destruct H|destruct H|destruct H as [->|H]; auto|].
  destruct H as [->|H]; [auto|]. destruct (IH _ _ _ H) as [->|H']; auto.
Qed.
Lemma value_in i h k : value i h = Refers k -> In (Refers k) (vars i).
Proof. intros E. eapply nth_error_In. rewrite <- E. apply value_nth. rewrite E. discriminate. Qed.

Lemma made_get i k : (k < length (made i))%nat -> exists sz, nth_error (made i) k = Some sz.
Proof. intros H. destruct (nth_error (made i) k) eqn:E; [eauto|]. apply nth_error_None in E. lia. Qed.
Lemma users_pos i h k : value i h = Refers k -> 1 <= users i k.
Proof. intros E. unfold users. apply (cnt_pos (refers_to k) (vars i) h (Refers k)); [rewrite <- E; apply value_nth; rewrite E; discriminate|cbn; apply Nat.eqb_refl]. Qed.

(** dropping the reference held by variable [h]; the variables themselves are not yet changed *)
Definition users_without (i : ideal) (h : nat) (k : nat) : Z := users i k - b2z (refers_to k (value i h)).
Lemma clear_R s i h v s' : R s i -> value i h <> Gone -> var s h = Ok v -> clear s v = Ok s' ->
  RH s' (made i) (users_without i h) /\ handles s' = handles s /\ entering_parallel s' = entering_parallel s /\ (ga s = None <-> ga s' = None).
Proof.
  intros HR Hv Ev E. destruct (R_var s i h HR Hv) as (v' & Ev' & Hrel). rewrite Ev in Ev'. injection Ev' as <-.
  destruct (value i h) as [k| |] eqn:Eh; cbn in Hrel; [| |discriminate].
  - injection Hrel as ->. pose proof (r_range _ _ HR k (value_in i h k Eh)) as Hk. destruct (made_get i k Hk) as (sz & Hsz).
    destruct (clear_ptr s (made i) (users i) k sz s' (r_heap _ _ HR) Hsz (users_pos i h k Eh) E) as (A & B). split; [|exact B].
    eapply RH_ext; [exact A|]. intros j _. unfold upd_u, users_without. rewrite Eh. cbn. rewrite (Nat.eqb_sym k j). destruct (Nat.eqb_spec j k) as [->|]; cbn; lia.
  - destruct Hrel as (v' & E1 & Hn). injection E1 as <-. rewrite clear_null in E by exact Hn. injection E as <-.
    split; [|tauto]. eapply RH_ext; [apply (r_heap _ _ HR)|]. intros j _. unfold users_without. rewrite Eh. cbn. lia.
Qed.
Lemma clear_R_ok s i h v : R s i -> value i h <> Gone -> var s h = Ok v -> ga s = None -> exists s', clear s v = Ok s'.
Proof.
  intros HR Hv Ev Hg. destruct (R_var s i h HR Hv) as (v' & Ev' & Hrel). rewrite Ev in Ev'. injection Ev' as <-.
  destruct (value i h) as [k| |] eqn:Eh; cbn in Hrel; [| |discriminate].
  - injection Hrel as ->. pose proof (r_range _ _ HR k (value_in i h k Eh)) as Hk. destruct (made_get i k Hk) as (sz & Hsz).
    eapply clear_ptr_ok; eauto using r_heap. eapply users_pos; eauto.
  - destruct Hrel as (v' & E1 & Hn). injection E1 as <-. rewrite clear_null by exact Hn. eauto.
Qed.
Lemma users_app i m t : forall k, zlen (filter (refers_to k) (vars i ++ [t])) = users i k + b2z (refers_to k t) + 0 * m.
Proof. intros k. fold (cnt (refers_to k) (vars i ++ [t])). rewrite cnt_app, cnt_cons. unfold users, cnt. cbn. lia. Qed.
Lemma users_set i h t : value i h <> Gone -> forall k, zlen (filter (refers_to k) (list_set (vars i) h t)) = users_without i h k + b2z (refers_to k t).
Proof. intros H k. fold (cnt (refers_to k) (list_set (vars i) h t)). rewrite (cnt_set _ _ _ _ _ (value_nth i h H)). reflexivity. Qed.

Lemma new_alloc_spec s sizes u size s' a : RH s sizes u -> u (length sizes) = 0 -> new_alloc s size = Ok (s', a) ->
  a = length sizes /\ RH s' (sizes ++ [size]) (upd_u u a 1) /\ handles s' = handles s /\ entering_parallel s' = entering_parallel s /\ (ga s = None <-> ga s' = None).
Proof.
  intros H Hu0 E. unfold new_alloc in E. set (s0 := set_heap s _) in E. cbn [ga set_heap s0] in E. pose proof (rh_len _ _ _ H) as Hl.
  assert (forall x, length (heap x) = length (heap s0) -> (forall k, view x k = view s0 k) -> freed x = freed s ->
    (forall g, ga x = Some g -> exists g0, ga s = Some g0 /\ g_total g = g_total g0 + size) ->
    RH x (sizes ++ [size]) (upd_u u (length (heap s)) 1)) as K.
  { intros x Lx Vx Fx Tx. constructor.
    - rewrite Lx. cbn. rewrite !app_length, Hl. reflexivity.
    - intros k sk Hk. rewrite Vx. unfold view. cbn [heap s0 set_heap]. unfold upd_u. rewrite Hl. destruct (Nat.eqb_spec k (length sizes)) as [->|Hne].
      + split; [lia|]. rewrite nth_error_app2, Nat.sub_diag in Hk by lia. injection Hk as <-. rewrite <- Hl. rewrite nth_error_app2, Nat.sub_diag by lia. reflexivity.
      + assert (k < length sizes)%nat as Hks.
        { assert (k < length (sizes ++ [size]))%nat as C by (apply nth_error_Some; congruence). rewrite app_length in C. cbn in C. lia. }
        rewrite nth_error_app1 in Hk by lia. rewrite nth_error_app1 by lia. apply (rh_view _ _ _ H k sk Hk).
    - destruct (rh_freed _ _ _ H) as [N F]. rewrite Fx. split; [exact N|]. intros k. rewrite F, app_length. cbn [length]. unfold upd_u. rewrite Hl.
      destruct (Nat.eqb_spec k (length sizes)) as [->|]; split; intros [? ?]; lia.
    - intros g Hg. destruct (Tx g Hg) as (g0 & Hg0 & ->). rewrite (rh_total _ _ _ H g0 Hg0). symmetry. apply live_bytes_new.
      + unfold upd_u. rewrite Hl, Nat.eqb_refl. reflexivity.
      + intros k Hk. unfold upd_u. rewrite Hl, (proj2 (Nat.eqb_neq _ _) Hk). reflexivity. }
  destruct (ga s) as [g|] eqn:Eg.
  - assert (deref s0 (length (heap s)) = Ok {| a_size := size; a_use_count := 1; a_prev := None; a_next := None |}) as Hd0.
    { unfold deref, s0. cbn [heap set_heap]. rewrite nth_error_app2, Nat.sub_diag by lia. reflexivity. }
    apply bind_ok in E as (s1 & E1 & E). destruct (store_links s0 _ _ _ _ E1 Hd0 eq_refl eq_refl) as (V1 & L1 & G1 & F1 & H1 & P1).
    apply bind_ok in E as (s2 & E2 & E).
    assert ((forall k, view s2 k = view s0 k) /\ length (heap s2) = length (heap s0) /\ freed s2 = freed s /\ handles s2 = handles s /\ entering_parallel s2 = entering_parallel s /\
      exists g', ga s2 = Some g' /\ g_total g' = g_total g) as (V2 & L2 & F2 & H2 & P2 & g2 & G2 & T2).
    { destruct (g_last g) as [l|].
      - apply bind_ok in E2 as (rl & Hr & E2). destruct (store_links _ _ _ _ _ E2 Hr eq_refl eq_refl) as (A & B & C & D & E' & F).
        split; [intros k; rewrite A; apply V1|]. split; [congruence|]. split; [rewrite D, F1; reflexivity|]. split; [rewrite E', H1; reflexivity|].
        split; [rewrite F, P1; reflexivity|]. exists g. split; [rewrite C, G1; exact Eg|reflexivity].
      - injection E2 as <-. split; [exact V1|]. split; [exact L1|]. split; [exact F1|]. split; [exact H1|]. split; [exact P1|]. eexists. split; reflexivity. }
    rewrite G2 in E.
    assert (s' = set_ga (set_ga s2 (with_total g2 (g_total g2 + size))) (with_high (with_total g2 (g_total g2 + size)) (g_total g2 + size)) \/ s' = set_ga s2 (with_total g2 (g_total g2 + size))) as Hs'.
    { destruct (_ <? _) in E; [apply bind_ok in E as (w & _ & E)|]; injection E as <- _; auto. }
    assert (a = length (heap s)) as ->. { destruct (_ <? _) in E; [apply bind_ok in E as (w & _ & E)|]; injection E as _ <-; auto. }
    split; [exact Hl|]. split; [|split; [destruct Hs' as [-> | ->]; exact H2|split; [destruct Hs' as [-> | ->]; exact P2|split; [discriminate|destruct Hs' as [-> | ->]; discriminate]]]].
    apply K.
    + destruct Hs' as [-> | ->]; exact L2.
    + destruct Hs' as [-> | ->]; exact V2.
    + destruct Hs' as [-> | ->]; exact F2.
    + intros g' Hg'. exists g. split; [reflexivity|]. destruct Hs' as [-> | ->]; cbn in Hg'; injection Hg' as <-; cbn; lia.
  - injection E as <- <-. split; [exact Hl|]. split; [|auto]. 2: { split; [reflexivity|]. split; [reflexivity|]. cbn. rewrite Eg. tauto. }
    apply K; try reflexivity. intros g Hg. cbn in Hg. congruence.
Qed.

Lemma users_range s i : R s i -> users i (length (made i)) = 0.
Proof.
  intros HR. pose proof (r_range _ _ HR) as Hr. unfold users. replace (filter _ _) with (@nil target); [reflexivity|]. symmetry.
  assert (forall l, (forall t, In t l -> In t (vars i)) -> filter (refers_to (length (made i))) l = []) as K; [|apply K; auto].
  intros l. induction l as [|t l IH]; intros Hl; [reflexivity|]. cbn. destruct t as [k| |]; cbn; try (apply IH; intros; apply Hl; right; assumption).
  pose proof (Hr k (Hl _ (or_introl eq_refl))). destruct (Nat.eqb_spec k (length (made i))); [lia|]. apply IH. intros; apply Hl; right; assumption.
Qed.

Lemma exec_R s i c s' : R s i -> sensible i c -> exec s c = Ok s' -> R s' (ideal_exec i c) /\ (ga s = None <-> ga s' = None).
Proof.
  intros HR Hs E. pose proof (r_vars _ _ HR) as HF. destruct c as [size|g|g|h g|h g|h|b]; cbn [exec] in E; cbn [sensible] in Hs.
  - (* New *)
    apply bind_ok in E as ([s1 a] & E1 & E). injection E as <-.
    destruct (new_alloc_spec s (made i) (users i) size s1 a (r_heap _ _ HR) (users_range s i HR) E1) as (-> & A & B & C & D). split; [|exact D].
    constructor; cbn [ideal_exec made par vars].
    + apply RH_handles. eapply RH_ext; [exact A|]. intros k _. unfold users at 2. cbn [vars]. rewrite (users_app i 0). cbn [refers_to]. unfold upd_u. rewrite Nat.eqb_sym.
      destruct (Nat.eqb_spec (length (made i)) k) as [<-|]; cbn; [rewrite (users_range s i HR); lia|lia].
    + cbn. rewrite C. apply (r_par _ _ HR).
    + cbn [handles set_handles]. rewrite B. apply Forall2_app; [exact HF|]. constructor; [reflexivity|constructor].
    + intros k Hk. rewrite app_length. apply in_app_or in Hk as [Hk|[Hk|[]]]; [pose proof (r_range _ _ HR k Hk); lia|]. injection Hk as <-. cbn. lia.
  - (* CopyC *)
    destruct (R_var s i g HR Hs) as (v & Ev & Hrel). rewrite Ev in E. cbn [bind] in E. apply bind_ok in E as ([s1 w] & E1 & E). injection E as <-.
    destruct (value i g) as [k| |] eqn:Eg; [| |contradiction]; cbn [hrel] in Hrel.
    + injection Hrel as ->. pose proof (r_range _ _ HR k (value_in i g k Eg)) as Hk. destruct (made_get i k Hk) as (sz & Hsz).
      destruct (entering_parallel s) eqn:Ep.
      * (* parallel copy *)
        destruct (deref_view s (made i) (users i) k sz (r_heap _ _ HR) Hsz ltac:(pose proof (users_pos i g k Eg); lia)) as (r & Hd & _).
        cbn [copy] in E1. rewrite Hd in E1. cbn [bind] in E1. rewrite Ep in E1. injection E1 as <- <-. split; [|reflexivity].
        pose proof (r_par _ _ HR) as Hp. rewrite Ep in Hp. constructor; cbn [ideal_exec made par vars].
        -- apply RH_handles. eapply RH_ext; [apply (r_heap _ _ HR)|]. intros j _. unfold users at 2. cbn [vars]. rewrite <- Hp. rewrite (users_app i 0). cbn. lia.
        -- cbn. congruence.
        -- cbn [handles set_handles]. apply Forall2_app; [exact HF|]. constructor; [|constructor]. rewrite <- Hp. eexists. split; [reflexivity|discriminate].
        -- intros j Hj. rewrite <- Hp in Hj. apply in_app_or in Hj as [Hj|[Hj|[]]]; [apply (r_range _ _ HR j Hj)|discriminate].
      * destruct (copy_ptr s (made i) (users i) k sz s1 w (r_heap _ _ HR) Hsz (users_pos i g k Eg) Ep E1) as (-> & A & B & C & D). split; [|exact D].
        pose proof (r_par _ _ HR) as Hp. rewrite Ep in Hp. constructor; cbn [ideal_exec made par vars]; rewrite <- ?Hp, ?Eg.
        -- apply RH_handles. eapply RH_ext; [exact A|]. intros j _. unfold users at 3. cbn [vars]. rewrite <- ?Hp, ?Eg. rewrite (users_app i 0). cbn [refers_to]. unfold upd_u.
           rewrite (Nat.eqb_sym k j). destruct (Nat.eqb_spec j k) as [->|]; cbn; lia.
        -- cbn. congruence.
        -- cbn [handles set_handles]. rewrite B. apply Forall2_app; [exact HF|]. constructor; [reflexivity|constructor].
        -- intros j Hj. apply in_app_or in Hj as [Hj|[Hj|[]]]; [apply (r_range _ _ HR j Hj)|]. injection Hj as <-. exact Hk.
    + destruct Hrel as (v' & E0 & Hn). injection E0 as <-. assert (copy s v = Ok (s, v)) as E1' by (destruct v; [reflexivity|exfalso; eapply Hn; reflexivity|reflexivity]).
      rewrite E1' in E1. injection E1 as <- <-. split; [|reflexivity]. constructor; cbn [ideal_exec made par vars]; rewrite ?Eg.
      * apply RH_handles. eapply RH_ext; [apply (r_heap _ _ HR)|]. intros j _. unfold users at 2. cbn [vars]. rewrite ?Eg. rewrite (users_app i 0). destruct (par i); cbn; lia.
      * apply (r_par _ _ HR).
      * cbn [handles set_handles]. apply Forall2_app; [exact HF|]. constructor; [|constructor]. destruct (par i); cbn; eauto.
      * intros j Hj. apply in_app_or in Hj as [Hj|[Hj|[]]]; [apply (r_range _ _ HR j Hj)|]. destruct (par i); discriminate.
  - (* MoveC *)
    destruct Hs as [Hs Hp]. destruct (R_var s i g HR Hs) as (v & Ev & Hrel). rewrite Ev in E. cbn [bind] in E. apply bind_ok in E as ([s1 w] & E1 & E). injection E as <-.
    assert (move s v = Ok (s, v)) as E1'. { pose proof (r_par _ _ HR) as Hpar. destruct v; cbn; auto. rewrite Hpar, Hp. reflexivity. }
    rewrite E1' in E1. injection E1 as <- <-. split; [|reflexivity]. constructor; cbn [ideal_exec made par vars].
    + apply RH_handles. eapply RH_ext; [apply (r_heap _ _ HR)|]. intros j _. unfold users at 2. cbn [vars]. fold (cnt (refers_to j) (list_set (vars i) g Nothing ++ [value i g])).
      rewrite cnt_app, (cnt_set _ _ _ _ _ (value_nth i g Hs)), cnt_cons. unfold users, cnt. cbn. lia.
    + apply (r_par _ _ HR).
    + cbn [handles set_handles]. apply Forall2_app.
      * apply Forall2_set; [exact HF|]. eexists. split; [reflexivity|discriminate].
      * constructor; [exact Hrel|constructor].
    + intros j Hj. apply (r_range _ _ HR). apply in_app_or in Hj as [Hj|[Hj|[]]].
      * apply In_list_set in Hj as [Hj|Hj]; [discriminate|exact Hj].
      * eapply value_in; eauto.
  - (* CopyA *)
    destruct Hs as (Hh & Hg & Hne & Hp). destruct (R_var s i h HR Hh) as (vh & Evh & Hrelh). rewrite Evh in E. cbn [bind] in E.
    apply bind_ok in E as (s1 & E1 & E). destruct (clear_R s i h vh s1 HR Hh Evh E1) as (A1 & B1 & C1 & D1).
    destruct (R_var s i g HR Hg) as (vg & Evg & Hrelg). assert (var s1 g = Ok vg) as Evg1 by (unfold var in *; rewrite B1; exact Evg).
    rewrite Evg1 in E. cbn [bind] in E. apply bind_ok in E as ([s2 w] & E2 & E). injection E as <-.
    assert (hrel (Some w) (value i g) /\ RH s2 (made i) (fun k => users_without i h k + b2z (refers_to k (value i g))) /\ handles s2 = handles s1 /\ entering_parallel s2 = entering_parallel s1 /\ (ga s1 = None <-> ga s2 = None)) as (Hw & A2 & B2 & C2 & D2).
    { destruct (value i g) as [k| |] eqn:Eg; [| |contradiction]; cbn [hrel] in Hrelg.
      - injection Hrelg as ->. pose proof (r_range _ _ HR k (value_in i g k Eg)) as Hk. destruct (made_get i k Hk) as (sz & Hsz).
        assert (1 <= users_without i h k) as Hu.
        { unfold users_without. pose proof (cnt_set (refers_to k) (vars i) h _ Nothing (value_nth i h Hh)) as Q. cbn in Q.
          assert (1 <= cnt (refers_to k) (list_set (vars i) h Nothing)); [|unfold users, cnt in *; lia].
          apply (cnt_pos _ _ g (Refers k)); [|cbn; apply Nat.eqb_refl]. rewrite list_set_nth_ne by lia. rewrite <- Eg. apply value_nth. rewrite Eg. discriminate. }
        assert (entering_parallel s1 = false) as Ep by (rewrite C1, (r_par _ _ HR); exact Hp).
        destruct (copy_ptr s1 (made i) (users_without i h) k sz s2 w A1 Hsz Hu Ep E2) as (-> & A & B & C & D).
        split; [reflexivity|]. split; [|tauto]. eapply RH_ext; [exact A|]. intros j _. unfold upd_u. cbn. rewrite (Nat.eqb_sym k j). destruct (Nat.eqb_spec j k) as [->|]; cbn; lia.
      - destruct Hrelg as (v' & E0 & Hn). injection E0 as <-. assert (copy s1 vg = Ok (s1, vg)) as E2' by (destruct vg; [reflexivity|exfalso; eapply Hn; reflexivity|reflexivity]).
        rewrite E2' in E2. injection E2 as <- <-. split; [cbn; eauto|]. split; [|tauto]. eapply RH_ext; [exact A1|]. intros; cbn; lia. }
    split; [|tauto]. constructor; cbn [ideal_exec made par vars].
    + apply RH_handles. eapply RH_ext; [exact A2|]. intros j _. symmetry. apply users_set. exact Hh.
    + cbn. rewrite C2, C1. apply (r_par _ _ HR).
    + cbn [handles set_handles]. rewrite B2, B1. apply Forall2_set; [exact HF|exact Hw].
    + intros j Hj. apply (r_range _ _ HR). apply In_list_set in Hj as [Hj|Hj]; [eapply value_in; eauto|exact Hj].
  - (* MoveA *)
    destruct Hs as (Hh & Hg & Hne & Hp). destruct (R_var s i h HR Hh) as (vh & Evh & Hrelh). rewrite Evh in E. cbn [bind] in E.
    apply bind_ok in E as (s1 & E1 & E). destruct (clear_R s i h vh s1 HR Hh Evh E1) as (A1 & B1 & C1 & D1).
    destruct (R_var s i g HR Hg) as (vg & Evg & Hrelg). assert (var s1 g = Ok vg) as Evg1 by (unfold var in *; rewrite B1; exact Evg).
    rewrite Evg1 in E. cbn [bind] in E. apply bind_ok in E as ([s2 w] & E2 & E). injection E as <-.
    assert (move s1 vg = Ok (s1, vg)) as E2'. { pose proof (r_par _ _ HR) as Hpar. destruct vg; cbn; auto. rewrite C1, Hpar, Hp. reflexivity. }
    rewrite E2' in E2. injection E2 as <- <-. split; [|exact D1].
    assert (nth_error (list_set (vars i) h (value i g)) g = Some (value i g)) as Hng by (rewrite list_set_nth_ne by lia; apply value_nth, Hg).
    constructor; cbn [ideal_exec made par vars].
    + apply RH_handles. eapply RH_ext; [exact A1|]. intros j _. unfold users. cbn [vars]. fold (cnt (refers_to j) (list_set (list_set (vars i) h (value i g)) g Nothing)).
      rewrite (cnt_set _ _ _ _ _ Hng), (cnt_set _ _ _ _ _ (value_nth i h Hh)). unfold users_without, users, cnt. cbn. lia.
    + cbn. rewrite C1. apply (r_par _ _ HR).
    + cbn [handles set_handles]. rewrite B1. apply Forall2_set; [apply Forall2_set; [exact HF|exact Hrelg]|]. eexists. split; [reflexivity|discriminate].
    + intros j Hj. apply (r_range _ _ HR). apply In_list_set in Hj as [Hj|Hj]; [discriminate|]. apply In_list_set in Hj as [Hj|Hj]; [eapply value_in; eauto|exact Hj].
  - (* Destroy *)
    destruct (R_var s i h HR Hs) as (vh & Evh & Hrelh). rewrite Evh in E. cbn [bind] in E.
    apply bind_ok in E as (s1 & E1 & E). destruct (clear_R s i h vh s1 HR Hs Evh E1) as (A1 & B1 & C1 & D1). injection E as <-. split; [|exact D1].
    constructor; cbn [ideal_exec made par vars].
    + apply RH_handles. eapply RH_ext; [exact A1|]. intros j _. symmetry. unfold users at 1. cbn [vars]. rewrite users_set by exact Hs. cbn. lia.
    + cbn. rewrite C1. apply (r_par _ _ HR).
    + cbn [handles set_handles]. rewrite B1. apply Forall2_set; [exact HF|reflexivity].
    + intros j Hj. apply (r_range _ _ HR). apply In_list_set in Hj as [Hj|Hj]; [discriminate|exact Hj].
  - (* SetParallel *)
    injection E as <-. split; [|reflexivity]. destruct HR as [A B C D]. constructor; auto. destruct A as [a1 a2 a3 a4]. constructor; auto.
Qed.

Lemma exec_ok s i c : R s i -> sensible i c -> ga s = None -> exists s', exec s c = Ok s'.
Proof.
  intros HR Hs Hg. destruct c as [size|g|g|h g|h g|h|b]; cbn [exec]; cbn [sensible] in Hs.
  - unfold new_alloc. cbn [ga set_heap]. rewrite Hg. cbn [bind]. eauto.
  - destruct (R_var s i g HR Hs) as (v & Ev & Hrel). rewrite Ev. cbn [bind].
    destruct (value i g) as [k| |] eqn:Eg; [| |contradiction]; cbn [hrel] in Hrel.
    + injection Hrel as ->. pose proof (r_range _ _ HR k (value_in i g k Eg)) as Hk. destruct (made_get i k Hk) as (sz & Hsz).
      destruct (deref_view s (made i) (users i) k sz (r_heap _ _ HR) Hsz ltac:(pose proof (users_pos i g k Eg); lia)) as (r & Hd & _).
      cbn [copy]. rewrite Hd. cbn [bind]. destruct (entering_parallel s); [cbn [bind]; eauto|]. unfold store. rewrite Hd. cbn [bind]. eauto.
    + destruct Hrel as (v' & E0 & Hn). injection E0 as <-. destruct v; [cbn; eauto|exfalso; eapply Hn; reflexivity|cbn; eauto].
  - destruct Hs as [Hs Hp]. destruct (R_var s i g HR Hs) as (v & Ev & Hrel). rewrite Ev. cbn [bind].
    assert (move s v = Ok (s, v)) as E1'. { pose proof (r_par _ _ HR) as Hpar. destruct v; cbn; auto. rewrite Hpar, Hp. reflexivity. }
    rewrite E1'. cbn [bind]. eauto.
  - destruct Hs as (Hh & Hgg & Hne & Hp). destruct (R_var s i h HR Hh) as (vh & Evh & Hrelh). rewrite Evh. cbn [bind].
    destruct (clear_R_ok s i h vh HR Hh Evh Hg) as (s1 & E1). rewrite E1. cbn [bind]. destruct (clear_R s i h vh s1 HR Hh Evh E1) as (A1 & B1 & C1 & D1).
    destruct (R_var s i g HR Hgg) as (vg & Evg & Hrelg). assert (var s1 g = Ok vg) as Evg1 by (unfold var in *; rewrite B1; exact Evg). rewrite Evg1. cbn [bind].
    destruct (value i g) as [k| |] eqn:Eg; [| |contradiction]; cbn [hrel] in Hrelg.
    + injection Hrelg as ->. pose proof (r_range _ _ HR k (value_in i g k Eg)) as Hk. destruct (made_get i k Hk) as (sz & Hsz).
      assert (1 <= users_without i h k) as Hu.
      { unfold users_without. pose proof (cnt_set (refers_to k) (vars i) h _ Nothing (value_nth i h Hh)) as Q. cbn in Q.
        assert (1 <= cnt (refers_to k) (list_set (vars i) h Nothing)); [|unfold users, cnt in *; lia].
        apply (cnt_pos _ _ g (Refers k)); [|cbn; apply Nat.eqb_refl]. rewrite list_set_nth_ne by lia. rewrite <- Eg. apply value_nth. rewrite Eg. discriminate. }
      destruct (deref_view s1 (made i) (users_without i h) k sz A1 Hsz ltac:(lia)) as (r & Hd & _).
      cbn [copy]. rewrite Hd. cbn [bind]. destruct (entering_parallel s1); [cbn [bind]; eauto|]. unfold store. rewrite Hd. cbn [bind]. eauto.
    + destruct Hrelg as (v' & E0 & Hn). injection E0 as <-. destruct vg; [cbn; eauto|exfalso; eapply Hn; reflexivity|cbn; eauto].
  - destruct Hs as (Hh & Hgg & Hne & Hp). destruct (R_var s i h HR Hh) as (vh & Evh & Hrelh). rewrite Evh. cbn [bind].
    destruct (clear_R_ok s i h vh HR Hh Evh Hg) as (s1 & E1). rewrite E1. cbn [bind]. destruct (clear_R s i h vh s1 HR Hh Evh E1) as (A1 & B1 & C1 & D1).
    destruct (R_var s i g HR Hgg) as (vg & Evg & Hrelg). assert (var s1 g = Ok vg) as Evg1 by (unfold var in *; rewrite B1; exact Evg). rewrite Evg1. cbn [bind].
    assert (move s1 vg = Ok (s1, vg)) as E2'. { pose proof (r_par _ _ HR) as Hpar. destruct vg; cbn; auto. rewrite C1, Hpar, Hp. reflexivity. }
    rewrite E2'. cbn [bind]. eauto.
  - destruct (R_var s i h HR Hs) as (vh & Evh & Hrelh). rewrite Evh. cbn [bind]. destruct (clear_R_ok s i h vh HR Hs Evh Hg) as (s1 & ->). cbn [bind]. eauto.
  - eauto.
Qed.

Lemma R_init : R init_state ideal0.
Proof.
  constructor; [|reflexivity|constructor|intros k []]. constructor; [reflexivity| | |discriminate].
  - intros [|k] sz H; discriminate.
  - split; [constructor|]. intros k. cbn. split; [intros []|lia].
Qed.
Lemma R_tracked : exists s, start_tracking init_state = Ok s /\ R s ideal0.
Proof.
  eexists. split; [reflexivity|]. constructor; [|reflexivity|constructor|intros k []]. constructor; [reflexivity| | |].
  - intros [|k] sz H; discriminate.
  - split; [constructor|]. intros k. cbn. split; [intros []|lia].
  - intros g Hg. cbn in Hg. injection Hg as <-. reflexivity.
Qed.

Lemma exec_all_R cs : forall s i s', R s i -> sensible_all i cs -> exec_all s cs = Ok s' -> R s' (ideal_all i cs) /\ (ga s = None <-> ga s' = None).
Proof.
  induction cs as [|c cs IH]; intros s i s' HR Hs E; [cbn in E; injection E as <-; split; [exact HR|tauto]|]. destruct Hs as [Hc Hs]. cbn in E.
  apply bind_ok in E as (s1 & E1 & E). destruct (exec_R s i c s1 HR Hc E1) as (HR1 & G1). destruct (IH _ _ _ HR1 Hs E) as (HR2 & G2). split; [exact HR2|tauto].
Qed.
Lemma exec_all_ok cs : forall s i, R s i -> sensible_all i cs -> ga s = None -> exists s', exec_all s cs = Ok s'.
Proof.
  induction cs as [|c cs IH]; intros s i HR Hs Hg; [cbn; eauto|]. destruct Hs as [Hc Hs]. destruct (exec_ok s i c HR Hc Hg) as (s1 & E1).
  destruct (exec_R s i c s1 HR Hc E1) as (HR1 & G1). destruct (IH s1 _ HR1 Hs ltac:(tauto)) as (s' & E). exists s'. unfold exec_all in *. cbn [foldM]. rewrite E1. exact E.
Qed.

Lemma users_in s i k : R s i -> users i k <> 0 -> exists h, nth_error (vars i) h = Some (Refers k).
Proof.
  intros HR Hu. assert (In (Refers k) (vars i)) as Hin.
  { unfold users in Hu. destruct (filter (refers_to k) (vars i)) as [|t l] eqn:E; [cbn in Hu; lia|].
    assert (In t (filter (refers_to k) (vars i))) as Ht by (rewrite E; left; reflexivity). apply filter_In in Ht as [Ht Hr].
    destruct t as [j| |]; cbn in Hr; try discriminate. apply Nat.eqb_eq in Hr. subst j. exact Ht. }
  apply In_nth_error in Hin. exact Hin.
Qed.

Lemma handles_sound cs : sensible_all ideal0 cs ->
  exists s, exec_all init_state cs = Ok s /\
  let i := ideal_all ideal0 cs in
  (forall h k, nth_error (vars i) h = Some (Refers k) -> nth_error (handles s) h = Some (Some (HPtr k)) /\
     exists r, deref s k = Ok r /\ a_use_count r = users i k /\ nth_error (made i) k = Some (a_size r)) /\
  NoDup (freed s) /\
  (forall k, In k (freed s) <-> (k < length (made i))%nat /\ ~ exists h, nth_error (vars i) h = Some (Refers k)).
Proof.
  intros Hs. destruct (exec_all_ok cs init_state ideal0 R_init Hs eq_refl) as (s & E). exists s. split; [exact E|]. intros i.
  destruct (exec_all_R cs _ _ _ R_init Hs E) as (HR & _). fold i in HR. split; [|split].
  - intros h k Hk. destruct (Forall2_nth _ _ _ (r_vars _ _ HR) h _ Hk) as (x & Hx & Hrel). cbn in Hrel. subst x. split; [exact Hx|].
    pose proof (r_range _ _ HR k (nth_error_In _ _ Hk)) as Hr. destruct (made_get i k Hr) as (sz & Hsz).
    assert (1 <= users i k) as Hu by (apply (cnt_pos (refers_to k) (vars i) h (Refers k)); [exact Hk|apply Nat.eqb_refl]).
    destruct (deref_view s (made i) (users i) k sz (r_heap _ _ HR) Hsz ltac:(lia)) as (r & Hd & Ha & Hc). exists r. split; [exact Hd|]. split; [exact Hc|congruence].
  - apply (rh_freed _ _ _ (r_heap _ _ HR)).
  - intros k. rewrite (proj2 (rh_freed _ _ _ (r_heap _ _ HR)) k). split; intros [Hk H]; (split; [exact Hk|]).
    + intros (h & Hh). pose proof (cnt_pos (refers_to k) (vars i) h (Refers k) Hh (Nat.eqb_refl k)). unfold users, cnt in *. lia.
    + destruct (Z.eq_dec (users i k) 0) as [|C]; [assumption|]. exfalso. apply H. eapply users_in; eauto.
Qed.

(** the sum of the sizes of the storages that some variable refers to *)
Lemma tracked_bytes cs s : sensible_all ideal0 cs -> (s0 <- start_tracking init_state ;; exec_all s0 cs) = Ok s ->
  exists g, ga s = Some g /\
  g_total g = zsum (map snd (filter (fun x => existsb (refers_to (fst x)) (vars (ideal_all ideal0 cs))) (combine (seq 0 (length (made (ideal_all ideal0 cs)))) (made (ideal_all ideal0 cs))))).
Proof.
  intros Hs E. destruct R_tracked as (s0 & E0 & HR0). rewrite E0 in E. cbn [bind] in E. destruct (exec_all_R cs _ _ _ HR0 Hs E) as (HR & G).
  set (i := ideal_all ideal0 cs) in *. assert (ga s0 <> None) as G0 by (cbn in E0; injection E0 as <-; discriminate).
  destruct (ga s) as [g|] eqn:Eg; [|exfalso; apply G0, G; reflexivity]. exists g. split; [reflexivity|].
  rewrite (rh_total _ _ _ (r_heap _ _ HR) g Eg). unfold live_bytes.
  assert (forall l k, skipn k (made i) = l -> (k + length l)%nat = length (made i) ->
    zsum (map (fun j => if users i j =? 0 then 0 else nth j (made i) 0) (seq k (length l))) =
    zsum (map snd (filter (fun x => existsb (refers_to (fst x)) (vars i)) (combine (seq k (length l)) l)))) as K.
  { induction l as [|x l IH]; intros k Hk Hl; [reflexivity|]. cbn [length seq map combine filter fst].
    assert (skipn (S k) (made i) = l) as Hk'. { clear -Hk. revert k Hk. induction (made i) as [|y m IH]; intros [|k] Hk; cbn in *; try discriminate; [congruence|]. apply IH, Hk. }
    specialize (IH (S k) Hk' ltac:(cbn in Hl; lia)). unfold zsum in *. cbn [fold_right].
    assert (nth k (made i) 0 = x) as ->. { clear -Hk. revert k Hk. induction (made i) as [|y m IH]; intros [|k] Hk; cbn in *; try discriminate; [congruence|]. apply IH, Hk. }
    destruct (Z.eqb_spec (users i k) 0) as [H0|H0].
    - assert (existsb (refers_to k) (vars i) = false) as ->.
      { destruct (existsb (refers_to k) (vars i)) eqn:Ee; [|reflexivity]. apply existsb_exists in Ee as (t & Ht & Hr).
        apply In_nth_error in Ht as (h & Ht). pose proof (cnt_pos (refers_to k) (vars i) h t Ht Hr). unfold users, cnt in *. lia. }
      cbn. exact IH.
    - assert (existsb (refers_to k) (vars i) = true) as ->.
      { destruct (users_in s i k HR H0) as (h & Hh). apply existsb_exists. exists (Refers k). split; [eapply nth_error_In; eauto|apply Nat.eqb_refl]. }
      cbn [map snd fold_right]. rewrite <- IH. lia. }
  apply (K (made i) 0%nat); reflexivity.
Qed.

(** * refutations *)
Definition run_tracked (cs : list stmt) : res mstate := s0 <- start_tracking init_state ;; exec_all s0 cs.

Lemma tracked_wrong : exists cs s, sensible_all ideal0 cs /\ run_tracked cs = Ok s /\
  tracked s = Ok [0; 2]%nat /\ vars (ideal_all ideal0 cs) = [Refers 0; Refers 1; Refers 2].
Proof.
  assert ((s <- run_tracked [New 8; New 8; New 8] ;; tracked s) = Ok [0; 2]%nat) as H by (vm_compute; reflexivity).
  apply bind_ok in H as (s & H1 & H2). exists [New 8; New 8; New 8], s. split; [cbn; auto|]. split; [exact H1|]. split; [exact H2|reflexivity].
Qed.
Lemma tracked_dangling : exists cs, sensible_all ideal0 cs /\ run_tracked cs = UB.
Proof. exists [New 8; New 8; Destroy 0%nat; New 8]. split; [cbn; repeat split; discriminate|vm_compute; reflexivity]. Qed.
Lemma self_assign : exec_all init_state [New 8; CopyA 0%nat 0%nat] = UB.
Proof. reflexivity. Qed.
Lemma self_move : exists s, exec_all init_state [New 8; CopyC 0%nat; MoveA 0%nat 0%nat] = Ok s /\ handles s = [Some HNull; Some (HPtr 0%nat)] /\ freed s = [].
Proof. eexists. split; [reflexivity|]. split; reflexivity. Qed.
Lemma parallel_move_leaks : exists s, exec_all init_state [New 8; SetParallel true; MoveC 0%nat; SetParallel false; Destroy 0%nat; Destroy 1%nat] = Ok s /\
  handles s = [None; None] /\ freed s = [] /\ exists r, deref s 0%nat = Ok r.
Proof. eexists. split; [reflexivity|]. split; [reflexivity|]. split; [reflexivity|]. eexists. reflexivity. Qed.
Lemma identity_null size : 0 <= size -> identity size = HNull.
Proof.
  intros H. unfold identity. assert (Z.land (Z.shiftl size 3) IS_IDENTITY = 0) as ->; [|reflexivity].
  apply Z.bits_inj'. intros n Hn. rewrite Z.land_spec, Z.bits_0. unfold IS_IDENTITY.
  destruct (Z.eq_dec n 1) as [->|Hn1]; [rewrite Z.shiftl_spec_low by lia; reflexivity|].
  replace (Z.testbit 2 n) with false; [apply andb_false_r|]. symmetry. change 2 with (2 ^ 1). apply Z.pow2_bits_false. lia.
Qed.
Lemma identity_size_ub s size : 0 <= size -> handle_size s (identity size) = UB.
Proof. intros H. rewrite identity_null by exact H. reflexivity. Qed.

(** a tagged copy still reports the size *)
Lemma parallel_copy_size s a r s' v : entering_parallel s = true -> deref s a = Ok r -> copy s (HPtr a) = Ok (s', v) -> 0 <= a_size r ->
  s' = s /\ handle_size s' v = Ok (a_size r).
Proof.
  intros Hp Hd E Hs. cbn [copy] in E. rewrite Hd in E. cbn [bind] in E. rewrite Hp in E. assert (s' = s /\ v = HTag (Z.lor (Z.shiftl (a_size r) 3) IN_PARALLEL)) as [-> ->] by (split; congruence). split; [reflexivity|].
  unfold handle_size, IN_PARALLEL.
  assert (Z.land (Z.lor (Z.shiftl (a_size r) 3) 1) 1 = 1) as ->.
  { rewrite Z.land_lor_distr_l. change 1 with (Z.ones 1) at 1. rewrite Z.land_ones by lia. rewrite Z.shiftl_mul_pow2 by lia.
    replace (a_size r * 2 ^ 3) with (a_size r * 4 * 2 ^ 1) by lia. rewrite Z.mod_mul by lia. reflexivity. }
  change (1 =? 0) with false. cbv iota. f_equal. rewrite Z.shiftr_lor, Z.shiftr_shiftl_l by lia. cbn. rewrite Z.lor_0_r. reflexivity.
Qed.
