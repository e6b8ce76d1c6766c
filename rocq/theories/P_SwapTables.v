(** The swap tables list every triangulation once. *)
From Verif Require Import Prelude M_SwapTables M_Swap3d S_Swap3d.
Local Open Scope Z_scope.

(** ** decision procedures *)
Definition eqp (d e : Z * Z) : bool := (fst d =? fst e) && (snd d =? snd e).
Lemma eqp_ok d e : eqp d e = true <-> d = e.
Proof. unfold eqp. rewrite andb_true_iff, !Z.eqb_eq. destruct d, e; cbn; split; [intros [-> ->]; reflexivity | intros [= -> ->]; auto]. Qed.
Definition memp (d : Z * Z) (l : list (Z * Z)) : bool := existsb (eqp d) l.
Lemma memp_ok d l : memp d l = true <-> In d l.
Proof. unfold memp. rewrite existsb_exists. split; [intros (x & H & E); apply eqp_ok in E as ->; exact H | intros H; exists d; split; [exact H | apply eqp_ok; reflexivity]]. Qed.
Fixpoint eql (a b : list Z) : bool := match a, b with [], [] => true | x :: a, y :: b => (x =? y) && eql a b | _, _ => false end.
Lemma eql_ok a : forall b, eql a b = true <-> a = b.
Proof.
  induction a as [|x a IH]; intros [|y b]; cbn; try (split; [discriminate | intros [=]]); [tauto|]. rewrite andb_true_iff, Z.eqb_eq, IH. split; [intros [-> ->]; reflexivity | intros [= -> ->]; auto].
Qed.
Definition meml (x : list Z) (l : list (list Z)) : bool := existsb (eql x) l.
Lemma meml_ok x l : meml x l = true <-> In x l.
Proof. unfold meml. rewrite existsb_exists. split; [intros (y & H & E); apply eql_ok in E as ->; exact H | intros H; exists x; split; [exact H | apply eql_ok; reflexivity]]. Qed.
Fixpoint nodup_by {A} (mem : A -> list A -> bool) (l : list A) : bool := match l with [] => true | x :: l => negb (mem x l) && nodup_by mem l end.
Lemma nodup_by_ok {A} (mem : A -> list A -> bool) : (forall x l, mem x l = true <-> In x l) -> forall l, nodup_by mem l = true <-> NoDup l.
Proof.
  intros Hm. induction l as [|x l IH]; cbn; [split; [constructor | reflexivity]|]. rewrite andb_true_iff, IH, negb_true_iff. split.
  - intros [H K]. constructor; [|exact K]. intros J. apply Hm in J. congruence.
  - intros H. inversion H as [|? ? H1 H2]; subst. split; [|exact H2]. destruct (mem x l) eqn:E; [|reflexivity]. apply Hm in E. contradiction.
Qed.

Definition diagonalb (n : Z) (d : Z * Z) : bool := (0 <=? fst d) && (fst d + 1 <? snd d) && (snd d <? n) && negb ((fst d =? 0) && (snd d =? n - 1)).
Lemma diagonalb_ok n d : diagonalb n d = true <-> diagonal n d.
Proof. unfold diagonalb, diagonal. rewrite !andb_true_iff, negb_true_iff, andb_false_iff, Z.leb_le, !Z.ltb_lt, !Z.eqb_neq. lia. Qed.
Definition crossb (d e : Z * Z) : bool :=
  ((fst d <? fst e) && (fst e <? snd d) && (snd d <? snd e)) || ((fst e <? fst d) && (fst d <? snd e) && (snd e <? snd d)).
Lemma crossb_ok d e : crossb d e = true <-> cross d e.
Proof. unfold crossb, cross. rewrite orb_true_iff, !andb_true_iff, !Z.ltb_lt. lia. Qed.
Definition noncross (D : list (Z * Z)) : bool := forallb (fun d => forallb (fun e => negb (crossb d e)) D) D.
Lemma noncross_ok D : noncross D = true <-> forall d e, In d D -> In e D -> ~ cross d e.
Proof.
  unfold noncross. rewrite forallb_forall. split.
  - intros H d e Hd He C. specialize (H d Hd). rewrite forallb_forall in H. specialize (H e He). apply crossb_ok in C. rewrite C in H. discriminate.
  - intros H d Hd. apply forallb_forall. intros e He. destruct (crossb d e) eqn:C; [|reflexivity]. apply crossb_ok in C. exfalso. exact (H d e Hd He C).
Qed.
Definition triangulationb (n : Z) (D : list (Z * Z)) : bool := nodup_by memp D && forallb (diagonalb n) D && noncross D && (zlen D =? n - 3).
Lemma triangulationb_ok n D : triangulationb n D = true <-> triangulation n D.
Proof.
  unfold triangulationb, triangulation. rewrite !andb_true_iff, (nodup_by_ok memp memp_ok), forallb_forall, noncross_ok, Z.eqb_eq.
  assert ((forall x, In x D -> diagonalb n x = true) <-> (forall d, In d D -> diagonal n d)) as ->; [|tauto].
  split; intros H d Hd; apply diagonalb_ok; auto.
Qed.
Definition joinedb (n : Z) (D : list (Z * Z)) (a b : Z) : bool := (b =? a + 1) || ((a =? 0) && (b =? n - 1)) || memp (a, b) D.
Lemma joinedb_ok n D a b : joinedb n D a b = true <-> joined n D a b.
Proof. unfold joinedb, joined. rewrite !orb_true_iff, andb_true_iff, !Z.eqb_eq, memp_ok. tauto. Qed.
Definition triangleb (n : Z) (D : list (Z * Z)) (a b c : Z) : bool := (0 <=? a) && (a <? b) && (b <? c) && (c <? n) && joinedb n D a b && joinedb n D b c && joinedb n D a c.
Lemma triangleb_ok n D a b c : triangleb n D a b c = true <-> triangle n D a b c.
Proof. unfold triangleb, triangle. rewrite !andb_true_iff, !joinedb_ok, Z.leb_le, !Z.ltb_lt. tauto. Qed.

(** ** edges as increasing pairs *)
Definition norm (e : list Z) : Z * Z := match e with [a; b] => (Z.min a b, Z.max a b) | _ => (0, 0) end.
Definition is_pair (e : list Z) : bool := match e with [_; _] => true | _ => false end.
Lemma is_pair_ok e : is_pair e = true -> exists a b, e = [a; b].
Proof. destruct e as [|a [|b [|? ?]]]; cbn; try discriminate. eauto. Qed.
Lemma names_norm E : forallb is_pair E = true -> names E (map norm E).
Proof.
  intros H. rewrite forallb_forall in H. split; [intros e He; apply is_pair_ok; auto|]. intros a b Hab. rewrite in_map_iff. split.
  - intros (e & Ee & He). destruct (is_pair_ok e (H e He)) as (x & y & ->). cbn in Ee. injection Ee as E1 E2.
    destruct (Z.le_gt_cases x y); [left | right]; replace a with (Z.min x y) by lia; replace b with (Z.max x y) by lia; rewrite ?Z.min_l, ?Z.max_r, ?Z.min_r, ?Z.max_l by lia; assumption.
  - intros [He | He]; eexists; (split; [|exact He]); cbn; f_equal; lia.
Qed.
Lemma names_ext E D D' : names E D -> (forall a b, In (a, b) D -> a < b) -> (forall a b, In (a, b) D' -> a < b) -> (names E D' <-> forall d, In d D <-> In d D').
Proof.
  intros [P H] L L'. split.
  - intros [_ H'] [a b]. split; intros K; [pose proof (L _ _ K) | pose proof (L' _ _ K)]; [apply H'; [lia|]; apply H; [lia|exact K] | apply H; [lia|]; apply H'; [lia|exact K]].
  - intros S'. split; [exact P|]. intros a b Hab. rewrite <- (S' (a, b)). apply H, Hab.
Qed.

(** ** sets of diagonals *)
Fixpoint sublists {A} (l : list A) : list (list A) := match l with [] => [[]] | x :: l => sublists l ++ map (cons x) (sublists l) end.
Lemma filter_sublist {A} (f : A -> bool) l : In (filter f l) (sublists l).
Proof. induction l as [|x l IH]; cbn; [auto|]. apply in_or_app. destruct (f x); [right; apply in_map, IH | left; exact IH]. Qed.
Definition diags (n : Z) : list (Z * Z) := filter (diagonalb n) (list_prod (zrange n) (zrange n)).
Lemma in_diags n d : diagonal n d -> In d (diags n).
Proof.
  intros H. apply filter_In. split; [|apply diagonalb_ok, H]. destruct d as [a b]. unfold diagonal in H; cbn [fst snd] in H. apply in_prod; apply in_zrange; lia.
Qed.
Lemma NoDup_prod {A B} (l : list A) (m : list B) : NoDup l -> NoDup m -> NoDup (list_prod l m).
Proof.
  intros Hl Hm. induction Hl as [|x l Hx Hl IH]; cbn; [constructor|]. 
  assert (forall (u v : list (A * B)), NoDup u -> NoDup v -> (forall z, In z u -> ~ In z v) -> NoDup (u ++ v)) as NA.
  { clear. induction u as [|z u IH]; intros v Hu Hv D; cbn; [exact Hv|]. inversion Hu; subst. constructor; [intros K; apply in_app_or in K as [K|K]; [contradiction | exact (D z (or_introl eq_refl) K)] | apply IH; auto; intros y Hy; apply D; right; exact Hy]. }
  apply NA; [|exact IH|].
  - clear -Hm. induction Hm as [|y m Hy Hm IH]; cbn; constructor; [|exact IH]. rewrite in_map_iff. intros (z & [= ->] & K). contradiction.
  - intros [a b] K1 K2. apply in_map_iff in K1 as (y & [= <- <-] & _). apply in_prod_iff in K2 as [K2 _]. contradiction.
Qed.
Lemma diags_NoDup n : NoDup (diags n).
Proof. apply NoDup_filter, NoDup_prod; apply zrange_NoDup. Qed.

Definition same_setp (S D : list (Z * Z)) : bool := forallb (fun d => memp d D) S && forallb (fun d => memp d S) D.
Lemma same_setp_ok S D : same_setp S D = true <-> forall d, In d S <-> In d D.
Proof.
  unfold same_setp. rewrite andb_true_iff, !forallb_forall. split.
  - intros [H K] d. split; intros X; [apply memp_ok, H, X | apply memp_ok, K, X].
  - intros H. split; intros d X; apply memp_ok, H, X.
Qed.

Lemma canonical n D : triangulation n D -> exists S, In S (sublists (diags n)) /\ triangulation n S /\ forall d, In d S <-> In d D.
Proof.
  intros (Hn & Hd & Hc & Hl). set (S := filter (fun d => memp d D) (diags n)). 
  assert (forall d, In d S <-> In d D) as HS. { intros d. unfold S. rewrite filter_In, memp_ok. split; [tauto|]. intros H. split; [apply in_diags, Hd, H | exact H]. }
  assert (NoDup S) as HN by apply NoDup_filter, diags_NoDup.
  exists S. split; [apply filter_sublist|]. split; [|exact HS]. split; [exact HN|]. split; [intros d H; apply Hd, HS, H|]. split; [intros d e H1 H2; apply Hc; apply HS; assumption|].
  assert (length S = length D) as E; [|unfold zlen in *; lia].
  apply Nat.le_antisymm; apply NoDup_incl_length; auto; intros d H; apply HS; exact H.
Qed.

(** ** the sweep *)
Definition oks {A} (r : res A) (f : A -> bool) : bool := match r with Ok a => f a | _ => false end.
Lemma oks_ok {A} (r : res A) f : oks r f = true -> exists a, r = Ok a /\ f a = true.
Proof. destruct r; cbn; try discriminate. eauto. Qed.
Definition check_config (n m : Z) : bool :=
  oks (config_edges n m) (fun E => oks (config_tris n m) (fun T =>
    forallb is_pair E && triangulationb n (map norm E) && (zlen E =? n - 3) && nodup_by meml T &&
    forallb (fun t => match t with [a; b; c] => triangleb n (map norm E) a b c | _ => false end) T &&
    forallb (fun a => forallb (fun b => forallb (fun c => implb (triangleb n (map norm E) a b c) (meml [a; b; c] T)) (zrange n)) (zrange n)) (zrange n))).
Definition config_norm (n m : Z) : list (Z * Z) := match config_edges n m with Ok E => map norm E | _ => [] end.
Definition check_size (n : Z) : bool :=
  oks (zget swap_mesh_counts n) (fun count =>
    forallb (check_config n) (zrange count) &&
    forallb (fun S => if zlen S =? n - 3 then if triangulationb n S then existsb (fun m => same_setp (config_norm n m) S) (zrange count) else true else true) (sublists (diags n)) &&
    forallb (fun m => forallb (fun m' => (m =? m') || negb (same_setp (config_norm n m) (config_norm n m'))) (zrange count)) (zrange count)).
Lemma check_all : forallb check_size [3; 4; 5; 6; 7] = true.
Proof. vm_compute. reflexivity. Qed.

Lemma size_cases n : 3 <= n <= 7 -> In n [3; 4; 5; 6; 7].
Proof. intros H. cbn. lia. Qed.
Lemma check_at n : 3 <= n <= 7 -> exists count, zget swap_mesh_counts n = Ok count /\
  (forall m, 0 <= m < count -> check_config n m = true) /\
  (forall S, In S (sublists (diags n)) -> triangulationb n S = true -> exists m, 0 <= m < count /\ same_setp (config_norm n m) S = true) /\
  (forall m m', 0 <= m < count -> 0 <= m' < count -> same_setp (config_norm n m) (config_norm n m') = true -> m = m').
Proof.
  intros H. apply size_cases in H. pose proof check_all as K. rewrite forallb_forall in K. apply K in H. unfold check_size in H. apply oks_ok in H as (count & Ec & H).
  rewrite !andb_true_iff, !forallb_forall in H. destruct H as [[H1 H2] H3]. exists count. split; [exact Ec|]. split; [|split].
  - intros m Hm. apply H1, in_zrange. lia.
  - intros S HS HT. specialize (H2 S HS). cbv beta in H2. assert (zlen S =? n - 3 = true) as Z3 by (unfold triangulationb in HT; rewrite !andb_true_iff in HT; tauto). rewrite Z3, HT in H2. apply existsb_exists in H2 as (m & Hm & E). apply in_zrange in Hm. eauto.
  - intros m m' Hm Hm' E. specialize (H3 m (proj2 (in_zrange _ _) Hm)). rewrite forallb_forall in H3. specialize (H3 m' (proj2 (in_zrange _ _) Hm')). rewrite E, orb_false_r in H3. apply Z.eqb_eq, H3.
Qed.

Lemma config_sound n m : check_config n m = true -> exists E T, config_edges n m = Ok E /\ config_tris n m = Ok T /\ triangulation n (map norm E) /\ names E (map norm E) /\
  zlen E = n - 3 /\ NoDup T /\ forall t, In t T <-> exists a b c, t = [a; b; c] /\ triangle n (map norm E) a b c.
Proof.
  intros H. unfold check_config in H. apply oks_ok in H as (E & EE & H). apply oks_ok in H as (T & ET & H). rewrite !andb_true_iff in H. destruct H as [[[[[H1 H2] H3] H4] H5] H6].
  exists E, T. repeat (split; [assumption || apply triangulationb_ok, H2 || apply names_norm, H1 || apply Z.eqb_eq, H3 || apply (nodup_by_ok meml meml_ok), H4|]).
  rewrite forallb_forall in H5. intros t. split.
  - intros Ht. specialize (H5 t Ht). destruct t as [|a [|b [|c [|? ?]]]]; try discriminate. exists a, b, c. split; [reflexivity|]. apply triangleb_ok, H5.
  - intros (a & b & c & -> & K). pose proof K as (Ka & Kb & Kc & _). apply triangleb_ok in K. assert (In a (zrange n) /\ In b (zrange n) /\ In c (zrange n)) as (Ia & Ib & Ic) by (rewrite !in_zrange; lia). rewrite forallb_forall in H6. specialize (H6 a Ia).
    rewrite forallb_forall in H6. specialize (H6 b Ib). rewrite forallb_forall in H6. specialize (H6 c Ic). rewrite K in H6. apply meml_ok, H6.
Qed.

Lemma triangulation_lt n D : triangulation n D -> forall a b, In (a, b) D -> a < b.
Proof. intros (_ & H & _) a b K. apply H in K. unfold diagonal in K. cbn in K. lia. Qed.

Lemma swap_tables_spec n : 3 <= n <= 7 -> exists count, zget swap_mesh_counts n = Ok count /\
  (forall m, 0 <= m < count -> exists E T D, config_edges n m = Ok E /\ config_tris n m = Ok T /\ triangulation n D /\ names E D /\
     zlen E = n - 3 /\ NoDup T /\ forall t, In t T <-> exists a b c, t = [a; b; c] /\ triangle n D a b c) /\
  (forall D, triangulation n D -> exists! m, 0 <= m < count /\ exists E, config_edges n m = Ok E /\ names E D).
Proof.
  intros Hn. destruct (check_at n Hn) as (count & Ec & H1 & H2 & H3). exists count. split; [exact Ec|]. split.
  - intros m Hm. destruct (config_sound n m (H1 m Hm)) as (E & T & K). exists E, T, (map norm E). exact K.
  - intros D HD. destruct (canonical n D HD) as (S & HS & HT & HSD). destruct (H2 S HS) as (m & Hm & Em); [apply triangulationb_ok, HT|].
    assert (forall m', 0 <= m' < count -> forall E, config_edges n m' = Ok E -> (names E D <-> forall d, In d (config_norm n m') <-> In d D)) as KN.
    { intros m' Hm' E EE. destruct (config_sound n m' (H1 m' Hm')) as (E' & T' & EE' & _ & HT' & HN' & _). assert (E' = E) as -> by congruence. unfold config_norm. rewrite EE.
      apply names_ext; [exact HN' | apply (triangulation_lt _ _ HT') | apply (triangulation_lt _ _ HD)]. }
    exists m. split.
    + split; [exact Hm|]. destruct (config_sound n m (H1 m Hm)) as (E & T & EE & _). exists E. split; [exact EE|]. apply (KN m Hm E EE). intros d. rewrite <- HSD. apply same_setp_ok, Em.
    + intros m' (Hm' & E & EE & HN). apply H3; [assumption..|]. apply same_setp_ok. intros d. rewrite (proj1 (KN m' Hm' E EE) HN d), <- HSD. apply same_setp_ok, Em.
Qed.
