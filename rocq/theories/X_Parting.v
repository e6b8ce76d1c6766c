(** Example data for partitions: a function that answers ask_down(dim, VERT) and ask_up(VERT, dim) for every mesh. *)
From Coq Require Import String Sorting.Sorted.
From Verif Require Import Prelude M_Array M_Par M_Scan M_Sort M_Map S_Map M_Tags M_Template M_Dist S_Dist M_Owners S_Owners M_Migrate S_Migrate M_Ghost S_Ghost M_Parting S_Parting.
From Verif Require Import P_Map P_Dist P_Dist2 P_Dist3 P_Dist6 P_Migrate4 P_Ghost4 P_Ghost5 P_Parting P_Parting2 P_Parting3 X_Migrate X_Ghost.
Local Open Scope Z_scope.

Definition pad (n : Z) (l : list Z) : list Z := match l with [] => [] | v :: _ => firstn (Z.to_nat n) (l ++ repeat v (Z.to_nat n)) end.
Lemma pad_ok n l : l <> [] -> zlen l <= n -> zlen (pad n l) = n /\ forall v, In v (pad n l) <-> In v l.
Proof.
  intros Ne Hn. destruct l as [|w l]; [congruence|]. cbn [pad]. unfold zlen in *. split; [rewrite firstn_length, app_length, repeat_length; lia|].
  intros v. rewrite firstn_app, in_app_iff. rewrite firstn_all2 by lia. split; [|auto]. intros [H|H]; [exact H|]. left.
  assert (forall (k : nat) (l : list Z), In v (firstn k l) -> In v l) as F by (intros k l' Hk; rewrite <- (firstn_skipn k l'); apply in_app_iff; auto). apply F, repeat_spec in H. auto.
Qed.
Lemma zget_blocks (f : Z -> list Z) deg : 0 <= deg -> forall l, (forall x, In x l -> zlen (f x) = deg) ->
  zlen (flat_map f l) = zlen l * deg /\ forall i x k, zget l i = Ok x -> 0 <= k < deg -> zget (flat_map f l) (i * deg + k) = zget (f x) k.
Proof.
  intros Hd. induction l as [|y l IH]; intros H; [split; [reflexivity|intros i x k Hi; apply zget_bounds in Hi; change (zlen (@nil Z)) with 0 in Hi; lia]|].
  destruct IH as [IL IG]; [intros; apply H; right; assumption|]. pose proof (H y (or_introl eq_refl)) as Ly. cbn [flat_map]. split.
  - rewrite zlen_app, IL, Ly, zlen_cons. lia.
  - intros i x k Hi Hk. pose proof (zget_bounds _ _ _ Hi) as B. destruct (Z.eq_dec i 0) as [->|Ne].
    + injection Hi as ->. rewrite zget_app_l by lia. f_equal.
    + rewrite zget_app_r by nia. rewrite Ly. replace (i * deg + k - deg) with ((i - 1) * deg + k) by lia. apply IG; [|exact Hk]. change (y :: l) with ([y] ++ l) in Hi. rewrite zget_app_r in Hi by (change (zlen [y]) with 1; lia). exact Hi.
Qed.

Definition down_of (m : dmesh) (s x : Z) : list Z := pad (element_degree (dm_family m) (dm_dim m) 0) (nodup Z.eq_dec (bound_verts m (Z.to_nat (dm_dim m)) s x)).
Definition ask_bounds (m : dmesh) : res asked :=
  elems <- elems_of m ;; verts <- verts_of m ;;
  let deg := element_degree (dm_family m) (dm_dim m) 0 in
  ev <- tabulate (zlen (de_nents elems)) (fun s => n <- zget (de_nents elems) s ;; Ok (flat_map (down_of m s) (zrange n))) ;;
  ps <- tabulate (zlen (de_nents verts)) (fun s => y <- zget ev s ;; n <- zget (de_nents verts) s ;; '(f, p) <- ex_by_sorting s y n ;; Ok (f, map (fun c => c / deg) p)) ;;
  Ok (Asked ev (map fst ps) (map snd ps)).

Lemma ask_bounds_ok nranks : answers nranks ask_bounds.
Proof.
  intros m elems verts Sm He Hv (elems0 & verts0 & a0 & He0 & Hv0 & Wa). assert (elems0 = elems) as -> by congruence. assert (verts0 = verts) as -> by congruence. clear He0 Hv0.
  pose proof (vert_degree_pos nranks m Sm) as Dp. pose proof (s_level _ _ Sm _ _ He) as Se. pose proof (s_level _ _ Sm _ _ Hv) as Sv. pose proof (l_nranks _ _ Se) as Ne. pose proof (l_nranks _ _ Sv) as Nv. pose proof (s_ranks _ _ Sm) as Br.
  unfold ask_bounds. rewrite He, Hv. cbn [bind]. cbv zeta. set (deg := element_degree (dm_family m) (dm_dim m) 0) in *.
  assert (forall s n x, zget (de_nents elems) s = Ok n -> 0 <= x < n -> zlen (down_of m s x) = deg /\ forall v, In v (down_of m s x) <-> bounds m (Z.to_nat (dm_dim m)) s x v) as Dn.
  { intros s n x Hn Hx. destruct (w_size _ _ _ _ Wa) as [L G]. fold deg in G. destruct (zget_in_range (elems2verts a0) s) as (y & Hy); [rewrite L; eapply zget_bounds; eauto|]. pose proof (G s n y Hn Hy) as Ly. set (l := nodup Z.eq_dec (bound_verts m (Z.to_nat (dm_dim m)) s x)).
    assert (forall v, In v l <-> bounds m (Z.to_nat (dm_dim m)) s x v) as Il by (intros v; unfold l; rewrite nodup_In; apply bound_verts_ok).
    assert (forall v, bounds m (Z.to_nat (dm_dim m)) s x v <-> In v (slice y (x * deg) deg)) as Sl. { intros v. rewrite <- (w_verts _ _ _ _ Wa s n x v Hn Hx). fold deg. rewrite slice_ok. split; [intros (k & Hk & (y' & Hy' & E)); assert (y' = y) as -> by congruence; eauto|intros (k & Hk & E); exists k; split; [exact Hk|]; exists y; auto]. }
    assert (l <> []) as Nl. { destruct (zget_in_range y (x * deg + 0) ltac:(nia)) as (v & E). assert (In v l) as I by (apply Il, Sl, slice_ok; exists 0; split; [lia|exact E]). intros Z. rewrite Z in I. destruct I. }
    assert (zlen l <= deg) as Ll.
    { assert (length l <= length (slice y (x * deg) deg))%nat as H by (apply NoDup_incl_length; [apply NoDup_nodup|intros v I; apply Sl, Il, I]). assert (forall f (r : list Z), (forall k, length (f k) <= 1)%nat -> (length (@flat_map Z Z f r) <= length r)%nat) as F. { intros f r H1. induction r as [|k r IH]; cbn [flat_map length]; [lia|]. rewrite app_length. specialize (H1 k). lia. }
      unfold slice in H. unfold zlen. specialize (F (fun k => match zget y (x * deg + k) with Ok v => [v] | _ => [] end) (zrange deg)). cbv beta in F. pose proof (zlen_zrange deg ltac:(lia)) as Z. unfold zlen in Z. enough (length (flat_map (fun k => match zget y (x * deg + k) with Ok v => [v] | _ => [] end) (zrange deg)) <= length (zrange deg))%nat by lia. apply F. intros k. destruct (zget y (x * deg + k)); cbn; lia. }
    destruct (pad_ok deg l Nl Ll) as [P1 P2]. unfold down_of. fold deg l. split; [exact P1|]. intros v. rewrite P2. apply Il. }
  destruct (tabulate_rel (zlen (de_nents elems)) (fun s => n <- zget (de_nents elems) s ;; Ok (flat_map (down_of m s) (zrange n))) (fun s y => forall n, zget (de_nents elems) s = Ok n -> y = flat_map (down_of m s) (zrange n))) as (ev & Eev & Lev & Gev); [apply zlen_nonneg| |].
  { intros s Bs. destruct (zget_in_range (de_nents elems) s Bs) as (n & Hn). rewrite Hn. cbn [bind]. eexists. split; [reflexivity|]. intros n' E. congruence. }
  rewrite Eev. cbn [bind].
  assert (data_per_root (de_nents elems) ev deg) as De.
  { split; [exact Lev|]. intros s n y Hn Hy. rewrite (Gev s y Hy n Hn). pose proof (l_owners _ _ Se) as (_ & _ & _ & A & _). pose proof (A s n Hn). destruct (zget_blocks (down_of m s) deg ltac:(lia) (zrange n)) as [Z _]; [intros x I; apply in_zrange in I; apply (Dn s n x Hn I)|]. rewrite Z, zlen_zrange by lia. reflexivity. }
  assert (forall s n x v, zget (de_nents elems) s = Ok n -> 0 <= x < n -> ((exists k, 0 <= k < deg /\ goes_to ev s (x * deg + k) v) <-> bounds m (Z.to_nat (dm_dim m)) s x v)) as Hb.
  { intros s n x v Hn Hx. destruct (zget_in_range ev s) as (y & Hy); [rewrite Lev; eapply zget_bounds; eauto|]. pose proof (Gev s y Hy n Hn) as Ey. destruct (zget_blocks (down_of m s) deg ltac:(lia) (zrange n)) as [_ Z]; [intros z I; apply in_zrange in I; apply (Dn s n z Hn I)|]. rewrite <- Ey in Z. destruct (Dn s n x Hn Hx) as [L I]. rewrite <- I. split.
    - intros (k & Hk & (y' & Hy' & E)). assert (y' = y) as -> by congruence. rewrite (Z x x k) in E; [eapply zget_In; eauto|apply zget_zrange; lia|exact Hk].
    - intros Iv. apply In_zget in Iv as (k & E). pose proof (zget_bounds _ _ _ E) as Bk. exists k. split; [lia|]. exists y. split; [exact Hy|]. rewrite (Z x x k); [exact E|apply zget_zrange; lia|lia]. }
  destruct (tabulate_rel (zlen (de_nents verts)) (fun s => y <- zget ev s ;; n <- zget (de_nents verts) s ;; '(f, p) <- ex_by_sorting s y n ;; Ok (f, map (fun c => c / deg) p)) (up_from deg ev verts)) as (ps & Eps & Lps & Gps); [apply zlen_nonneg| |].
  { intros s Bs. destruct (zget_in_range ev s ltac:(lia)) as (y & Hy). destruct (zget_in_range (de_nents verts) s Bs) as (n & Hn). rewrite Hy, Hn. cbn [bind]. destruct (upward_range nranks m elems verts ev Sm He Hv De Hb s y n Hy Hn) as [B1 B2]. destruct (sorting_inverter s y n B1 B2) as (f & p & E & I). unfold ex_by_sorting in *. rewrite E. cbn [bind]. eexists. split; [reflexivity|]. eapply upward_one; eauto. }
  rewrite Eps. cbn [bind]. eexists. split; [reflexivity|]. apply (upward_given nranks m elems verts ev Sm He Hv De Hb ps); [lia|exact Gps].
Qed.

(** ** seven segments over three ranks, led through several partitions *)
Definition px_mesh := PMesh gx_mesh (Some OMEGA_H_ELEM_BASED) 0.
Definition ownedb (elems : dents) : bool := all_zget (de_ranks elems) (fun s a => forallb (fun t => t =? s) a).
Lemma ownedb_ok elems : ownedb elems = true -> forall s t j, is_on elems s t j -> t = s.
Proof. intros H s t j (x & (a & Ha & Ht) & _). pose proof (all_zget_ok _ _ H s a Ha) as K. cbv beta in K. rewrite forallb_forall in K. apply Z.eqb_eq, K. eapply zget_In; eauto. Qed.
Lemma px_parted : parted 3 px_mesh.
Proof.
  destruct gx_ok as (S & A & C & W). split; [exact S|]. split; [exact A|]. split; [exact C|]. split; [exists gx_edges, gx_verts, gx_asked; auto|]. intros elems He. injection He as <-. split; [reflexivity|]. apply ownedb_ok. vm_compute. reflexivity.
Qed.
Definition px_requests := [(OMEGA_H_GHOSTED, 1); (OMEGA_H_GHOSTED, 3); (OMEGA_H_VERT_BASED, 1); (OMEGA_H_GHOSTED, 2); (OMEGA_H_GHOSTED, 1); (OMEGA_H_ELEM_BASED, 0)].
Lemma px_admissible : forall p n, In (p, n) px_requests -> admissible (pm_mesh px_mesh) p n.
Proof.
  assert (Forall (fun r => admissible (pm_mesh px_mesh) (fst r) (snd r)) px_requests) as H. { unfold px_requests. repeat (apply Forall_cons; [cbn; first [reflexivity|left; reflexivity|right; split; [lia|reflexivity]]|]). apply Forall_nil. }
  rewrite Forall_forall in H. intros p n I. exact (H (p, n) I).
Qed.
(** the global numbers of the elements of each rank, in the partitions asked for *)
Fixpoint px_history (reqs : list (parting * Z)) (pm : pmesh) : list (res (list (list Z))) :=
  match reqs with
  | [] => []
  | (p, n) :: reqs => match set_parting ex_by_sorting ask_bounds 3 pm p n with
    | Ok pm' => (e <- elems_of (pm_mesh pm') ;; globals e) :: px_history reqs pm'
    | Abort => [Abort] | UB => [UB]
    end
  end.
Lemma px_run : px_history px_requests px_mesh =
  [Ok [[0; 1; 2; 3]; [2; 3; 4]; [3; 4; 5; 6]];
   Ok [[0; 1; 2; 3; 4; 5]; [0; 1; 2; 3; 4; 5; 6]; [1; 2; 3; 4; 5; 6]];
   Ok [[0; 1; 2; 3]; [3; 4]; [4; 5; 6]];
   Ok [[0; 1; 2; 3; 4]; [1; 2; 3; 4; 5; 6]; [3; 4; 5; 6]];
   Ok [[0; 1; 2; 3]; [2; 3; 4; 5]; [4; 5; 6]];
   Ok [[0; 1; 2]; [3; 4]; [5; 6]]].
Proof. vm_compute. reflexivity. Qed.
Lemma px_refused : set_parting ex_by_sorting ask_bounds 3 px_mesh OMEGA_H_GHOSTED 0 = Abort.
Proof. vm_compute. reflexivity. Qed.
Definition pq_mesh := PMesh gq_mesh (Some OMEGA_H_ELEM_BASED) 0.
Lemma pq_parted : parted 2 pq_mesh.
Proof.
  destruct gq_ok as (S & A & C & W). split; [exact S|]. split; [exact A|]. split; [exact C|]. split; [exists gq_quads, gq_verts, gq_asked; auto|]. intros elems He. injection He as <-. split; [reflexivity|]. apply ownedb_ok. vm_compute. reflexivity.
Qed.
Lemma pq_two : set_parting ex_by_sorting ask_bounds 2 pq_mesh OMEGA_H_GHOSTED 2 = Abort.
Proof. vm_compute. reflexivity. Qed.
Lemma two_layers_abort : ~ forall inv ask nranks pm p n, inverter inv -> answers nranks ask -> parted nranks pm -> pm_parting pm <> None -> 0 < n -> p = OMEGA_H_GHOSTED -> exists pm', set_parting inv ask nranks pm p n = Ok pm'.
Proof.
  intros H. destruct (H ex_by_sorting ask_bounds 2 pq_mesh OMEGA_H_GHOSTED 2 sorting_inverter (ask_bounds_ok 2) pq_parted ltac:(discriminate) ltac:(lia) eq_refl) as (pm' & E). rewrite pq_two in E. discriminate.
Qed.
Lemma no_layers_abort : ~ forall inv ask nranks pm, inverter inv -> answers nranks ask -> parted nranks pm -> exists pm', set_parting inv ask nranks pm OMEGA_H_GHOSTED 0 = Ok pm'.
Proof.
  intros H. destruct (H ex_by_sorting ask_bounds 3 px_mesh sorting_inverter (ask_bounds_ok 3) px_parted) as (pm' & E). rewrite px_refused in E. discriminate.
Qed.
