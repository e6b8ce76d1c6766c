(** What the elementary operations on automata do to the table, seen as functions of state and column. *)
From Verif Require Import Prelude M_Automaton S_Automaton.
Local Open Scope Z_scope.

Definition cell (fa : automaton) (s c : Z) : Z :=
  match zget (table fa) s with Ok r => match zget r c with Ok v => v | _ => -1 end | _ => -1 end.
Definition tok (fa : automaton) (s : Z) : Z := match zget (accepted_tokens fa) s with Ok v => v | _ => -1 end.

(** fa has n states, k symbols, and its table and tokens are given by cf and tf. *)
Record shape (fa : automaton) (n k : Z) (det : bool) (cf : Z -> Z -> Z) (tf : Z -> Z) : Prop := Shape {
  sh_det : is_deterministic fa = det;
  sh_nc : ncols fa = k + (if det then 0 else 2);
  sh_n : zlen (table fa) = n;
  sh_t : zlen (accepted_tokens fa) = n;
  sh_rows : forall s r, zget (table fa) s = Ok r -> zlen r = ncols fa;
  sh_cell : forall s c, 0 <= s < n -> 0 <= c < ncols fa -> cell fa s c = cf s c;
  sh_tok : forall s, 0 <= s < n -> tok fa s = tf s }.

Lemma shape_ext fa n k det cf tf cf' tf' :
  shape fa n k det cf tf ->
  (forall s c, 0 <= s < n -> 0 <= c < k + (if det then 0 else 2) -> cf s c = cf' s c) ->
  (forall s, 0 <= s < n -> tf s = tf' s) -> shape fa n k det cf' tf'.
Proof.
  intros [A B C D E F G] H I. constructor; auto.
  - intros s c Hs Hc. rewrite F by assumption. apply H; [assumption|]. rewrite <- B; assumption.
  - intros s Hs. rewrite G by assumption. auto.
Qed.

Lemma shape_nonneg fa n k det cf tf : shape fa n k det cf tf -> 0 <= n.
Proof. intros [A B C D E F G]. rewrite <- C. apply zlen_nonneg. Qed.

Lemma shape_nsym fa n k det cf tf : shape fa n k det cf tf -> get_nsymbols fa = k.
Proof. intros [A B C D E F G]. unfold get_nsymbols. rewrite A, B. destruct det; lia. Qed.

Lemma shape_nstates fa n k det cf tf : shape fa n k det cf tf -> 0 < k + (if det then 0 else 2) -> get_nstates fa = Ok n.
Proof.
  intros [A B C D E F G] H. unfold get_nstates. rewrite B.
  destruct (Z.ltb_spec 0 (k + (if det then 0 else 2))); [|lia]. simpl. congruence.
Qed.

Lemma shape_get fa n k det cf tf s c :
  shape fa n k det cf tf -> 0 <= s < n -> 0 <= c < k + (if det then 0 else 2) ->
  exists r, zget (table fa) s = Ok r /\ zlen r = ncols fa /\ zget r c = Ok (cf s c).
Proof.
  intros [A B C D E F G] Hs Hc.
  destruct (zget_in_range (table fa) s ltac:(lia)) as [r R].
  exists r. split; [exact R|]. split; [eapply E; exact R|].
  destruct (zget_in_range r c) as [v V]; [rewrite (E _ _ R), B; lia|].
  specialize (F s c Hs ltac:(lia)). unfold cell in F. rewrite R, V in F. congruence.
Qed.

Lemma shape_tget fa n k det cf tf s c :
  shape fa n k det cf tf -> 0 <= s < n -> 0 <= c < k + (if det then 0 else 2) -> tget fa s c = Ok (cf s c).
Proof.
  intros H Hs Hc. unfold tget. rewrite (shape_nstates _ _ _ _ _ _ H) by lia. rewrite (sh_nc _ _ _ _ _ _ H).
  destruct (shape_get _ _ _ _ _ _ s c H Hs Hc) as (r & R & _ & V).
  cbn [andb check bind]. destruct (Z.leb_spec 0 c); [|lia]. destruct (Z.ltb_spec c (k + (if det then 0 else 2))); [|lia].
  cbn [andb check bind]. destruct (Z.leb_spec 0 s); [|lia]. destruct (Z.ltb_spec s n); [|lia]. cbn [andb check bind].
  rewrite R. cbn [bind]. exact V.
Qed.

Lemma shape_step fa n k det cf tf s c :
  shape fa n k det cf tf -> 0 <= s < n -> 0 <= c < k + (if det then 0 else 2) -> step fa s c = Ok (cf s c).
Proof.
  intros H Hs Hc. unfold step. rewrite (shape_nstates _ _ _ _ _ _ H) by lia. rewrite (sh_nc _ _ _ _ _ _ H).
  cbn [andb check bind]. destruct (Z.leb_spec 0 c); [|lia]. destruct (Z.ltb_spec c (k + (if det then 0 else 2))); [|lia].
  cbn [andb check bind]. destruct (Z.leb_spec 0 s); [|lia]. destruct (Z.ltb_spec s n); [|lia]. cbn [andb check bind].
  eapply shape_tget; eassumption.
Qed.

Lemma step_bounds fa s c t : step fa s c = Ok t -> 0 <= s < zlen (table fa) /\ 0 <= c < ncols fa.
Proof.
  unfold step, get_nstates. intros H.
  destruct (Z.leb_spec 0 s); [|discriminate].
  destruct (Z.ltb_spec 0 (ncols fa)); [|discriminate]. cbn [check bind] in H.
  destruct (Z.ltb_spec s (zlen (table fa))); [|discriminate].
  destruct (Z.leb_spec 0 c); [|discriminate].
  destruct (Z.ltb_spec c (ncols fa)); [|discriminate]. lia.
Qed.

Lemma step_cell fa s c t : step fa s c = Ok t -> cell fa s c = t.
Proof.
  intros H. pose proof (step_bounds _ _ _ _ H) as [Hs Hc]. unfold step, tget, get_nstates in H.
  destruct (Z.leb_spec 0 s); [|lia]. destruct (Z.ltb_spec 0 (ncols fa)); [|lia]. cbn [check bind] in H.
  destruct (Z.ltb_spec s (zlen (table fa))); [|lia]. destruct (Z.leb_spec 0 c); [|lia].
  destruct (Z.ltb_spec c (ncols fa)); [|lia]. cbn [check bind andb] in H.
  unfold cell. destruct (zget (table fa) s) as [r| |]; cbn [bind] in H; try discriminate. rewrite H. reflexivity.
Qed.

Lemma vget_zget {A} (l : list A) i a : vget l i = Ok a <-> zget l i = Ok a.
Proof.
  unfold vget. split; intros H.
  - destruct ((0 <=? i) && (i <? zlen l)); [exact H | discriminate].
  - pose proof (zget_bounds _ _ _ H). destruct (Z.leb_spec 0 i); [|lia]. destruct (Z.ltb_spec i (zlen l)); [|lia]. exact H.
Qed.

Lemma shape_accepts fa n k det cf tf s : shape fa n k det cf tf -> 0 <= s < n -> accepts fa s = Ok (tf s).
Proof.
  intros H Hs. unfold accepts. apply vget_zget.
  destruct (zget_in_range (accepted_tokens fa) s) as [t E]; [rewrite (sh_t _ _ _ _ _ _ H); lia|].
  rewrite E. f_equal. rewrite <- (sh_tok _ _ _ _ _ _ H s Hs). unfold tok. rewrite E. reflexivity.
Qed.

Lemma accepts_tok fa s t : accepts fa s = Ok t -> tok fa s = t /\ 0 <= s < zlen (accepted_tokens fa).
Proof. unfold accepts. intros H. apply vget_zget in H. unfold tok. rewrite H. split; [reflexivity | eapply zget_bounds; exact H]. Qed.

Lemma new_shape k (det : bool) : 0 <= k + (if det then 0 else 2) ->
  exists fa, new_automaton k det = Ok fa /\ shape fa 0 k det (fun _ _ => -1) (fun _ => -1).
Proof.
  intros H. unfold new_automaton. destruct (Z.leb_spec 0 (k + (if det then 0 else 2))); [|lia].
  cbn [check bind]. eexists. split; [reflexivity|].
  constructor; cbn; try reflexivity; try lia.
  intros s r Hr. exfalso. revert Hr. unfold zget. destruct (s <? 0); [discriminate|]. destruct (Z.to_nat s); discriminate.
Qed.

Lemma zlen_snoc {A} (l : list A) x : zlen (l ++ [x]) = zlen l + 1.
Proof. rewrite zlen_app. reflexivity. Qed.

Lemma zget_app_last {A} (l : list A) x : zget (l ++ [x]) (zlen l) = Ok x.
Proof. rewrite zget_app_r by lia. replace (zlen l - zlen l) with 0 by lia. reflexivity. Qed.

Lemma zget_repeat_Z (v : Z) n c : 0 <= c < Z.of_nat n -> zget (repeat v n) c = Ok v.
Proof.
  intros H. apply zget_ok. split; [lia|].
  replace (Z.to_nat c) with (Z.to_nat c)%nat by reflexivity.
  assert (Z.to_nat c < n)%nat as L by lia. revert L. generalize (Z.to_nat c). clear.
  induction n as [|n IH]; intros [|m] L; try lia; cbn; [reflexivity|]. apply IH. lia.
Qed.

Lemma add_state_shape fa n k (det : bool) cf tf :
  shape fa n k det cf tf -> 0 < k + (if det then 0 else 2) ->
  exists fa', add_state fa = Ok (fa', n) /\
  shape fa' (n + 1) k det (fun s c => if s =? n then -1 else cf s c) (fun s => if s =? n then -1 else tf s).
Proof.
  intros H Hk. unfold add_state. rewrite (shape_nstates _ _ _ _ _ _ H Hk). cbn [bind].
  eexists. split; [reflexivity|]. destruct H as [A B C D E F G].
  pose proof (zlen_nonneg (table fa)) as N0.
  constructor; cbn [table ncols accepted_tokens is_deterministic]; auto.
  - rewrite zlen_snoc. lia.
  - rewrite zlen_snoc. lia.
  - intros s r R. pose proof (zget_bounds _ _ _ R) as Bd. rewrite zlen_snoc in Bd.
    destruct (Z.eq_dec s (zlen (table fa))) as [->|Ne].
    + rewrite zget_app_last in R. injection R as <-. unfold zlen. rewrite repeat_length. lia.
    + rewrite zget_app_l in R by lia. eapply E; exact R.
  - intros s c Hs Hc. unfold cell; cbn [table]. destruct (Z.eqb_spec s n) as [->|Ne].
    + rewrite <- C, zget_app_last. rewrite zget_repeat_Z by lia. reflexivity.
    + rewrite zget_app_l by lia. apply F; lia.
  - intros s Hs. unfold tok; cbn [accepted_tokens]. destruct (Z.eqb_spec s n) as [->|Ne].
    + rewrite <- D, zget_app_last. reflexivity.
    + rewrite zget_app_l by lia. apply G; lia.
Qed.

Lemma tset_shape fa n k det cf tf s c v :
  shape fa n k det cf tf -> 0 <= s < n -> 0 <= c < k + (if det then 0 else 2) ->
  exists fa', tset fa s c v = Ok fa' /\
  shape fa' n k det (fun s' c' => if (s' =? s) && (c' =? c) then v else cf s' c') tf.
Proof.
  intros H Hs Hc. unfold tset. rewrite (shape_nstates _ _ _ _ _ _ H) by lia.
  pose proof (sh_nc _ _ _ _ _ _ H) as B. rewrite B.
  destruct (shape_get _ _ _ _ _ _ s c H Hs Hc) as (r & R & L & V).
  cbn [andb check bind]. destruct (Z.leb_spec 0 c); [|lia]. destruct (Z.ltb_spec c (k + (if det then 0 else 2))); [|lia].
  cbn [andb check bind]. destruct (Z.leb_spec 0 s); [|lia]. destruct (Z.ltb_spec s n); [|lia]. cbn [andb check bind].
  rewrite R. cbn [bind].
  destruct (zset_in_range r c v) as [r' R']; [lia|]. rewrite R'. cbn [bind].
  destruct (zset_in_range (table fa) s r') as [t' T']; [rewrite (sh_n _ _ _ _ _ _ H); lia|]. rewrite T'. cbn [bind].
  eexists. split; [reflexivity|]. destruct H as [A _ C D E F G].
  constructor; cbn [table ncols accepted_tokens is_deterministic]; auto.
  - rewrite (zset_zlen _ _ _ _ T'). exact C.
  - intros s' r1 R1. destruct (Z.eq_dec s' s) as [->|Ne].
    + rewrite (zset_get_eq _ _ _ _ T') in R1. injection R1 as <-. rewrite (zset_zlen _ _ _ _ R'). lia.
    + rewrite (zset_get_ne _ _ _ _ _ T') in R1 by congruence. rewrite (E _ _ R1). lia.
  - intros s' c' Hs' Hc'. unfold cell; cbn [table]. destruct (Z.eqb_spec s' s) as [->|Ne]; cbn [andb].
    + rewrite (zset_get_eq _ _ _ _ T'). destruct (Z.eqb_spec c' c) as [->|Nc].
      * rewrite (zset_get_eq _ _ _ _ R'). reflexivity.
      * rewrite (zset_get_ne _ _ _ _ _ R') by congruence. specialize (F s c' Hs' ltac:(lia)). unfold cell in F. rewrite R in F. exact F.
    + rewrite (zset_get_ne _ _ _ _ _ T') by congruence. apply F; lia.
Qed.

Lemma add_transition_shape fa n k det cf tf s c t :
  shape fa n k det cf tf -> 0 <= s < n -> 0 <= c < k + (if det then 0 else 2) -> 0 <= t < n -> cf s c = -1 ->
  exists fa', add_transition fa s c t = Ok fa' /\
  shape fa' n k det (fun s' c' => if (s' =? s) && (c' =? c) then t else cf s' c') tf.
Proof.
  intros H Hs Hc Ht Hf. unfold add_transition. rewrite (shape_nstates _ _ _ _ _ _ H) by lia.
  rewrite (sh_nc _ _ _ _ _ _ H).
  cbn [bind]. destruct (Z.leb_spec 0 t); [|lia]. destruct (Z.ltb_spec t n); [|lia].
  destruct (Z.leb_spec 0 c); [|lia]. destruct (Z.ltb_spec c (k + (if det then 0 else 2))); [|lia]. cbn [check bind].
  rewrite (shape_tget _ _ _ _ _ _ s c H Hs Hc), Hf. cbn [bind]. change (check (-1 =? -1)) with (Ok tt). cbn [bind].
  apply tset_shape; assumption.
Qed.

Lemma set_token_shape fa n k det cf tf s v :
  shape fa n k det cf tf -> 0 <= s < n ->
  exists toks, vset (accepted_tokens fa) s v = Ok toks /\
  shape (FA (table fa) (ncols fa) toks (is_deterministic fa)) n k det cf (fun s' => if s' =? s then v else tf s').
Proof.
  intros [A B C D E F G] Hs. unfold vset.
  destruct (Z.leb_spec 0 s); [|lia]. destruct (Z.ltb_spec s (zlen (accepted_tokens fa))); [|lia]. cbn [andb check bind].
  destruct (zset_in_range (accepted_tokens fa) s v) as [l' L]; [lia|]. rewrite L. eexists. split; [reflexivity|].
  constructor; cbn [table ncols accepted_tokens is_deterministic]; auto.
  - rewrite (zset_zlen _ _ _ _ L). exact D.
  - intros s' Hs'. unfold tok; cbn [accepted_tokens]. destruct (Z.eqb_spec s' s) as [->|Ne].
    + rewrite (zset_get_eq _ _ _ _ L). reflexivity.
    + rewrite (zset_get_ne _ _ _ _ _ L) by congruence. apply G; lia.
Qed.

Lemma add_accept_shape fa n k det cf tf s v :
  shape fa n k det cf tf -> 0 <= s < n -> 0 <= v ->
  exists fa', add_accept fa s v = Ok fa' /\ shape fa' n k det cf (fun s' => if s' =? s then v else tf s').
Proof.
  intros H Hs Hv. unfold add_accept. destruct (Z.leb_spec 0 v); [|lia]. cbn [check bind].
  destruct (set_token_shape _ _ _ _ _ _ s v H Hs) as (l & E & X). rewrite E. cbn [bind]. eauto.
Qed.

Lemma remove_accept_shape fa n k det cf tf s :
  shape fa n k det cf tf -> 0 <= s < n ->
  exists fa', remove_accept fa s = Ok fa' /\ shape fa' n k det cf (fun s' => if s' =? s then -1 else tf s').
Proof.
  intros H Hs. unfold remove_accept.
  destruct (set_token_shape _ _ _ _ _ _ s (-1) H Hs) as (l & E & X). rewrite E. cbn [bind]. eauto.
Qed.

(** Well-formed automata have a shape, and a shape with good entries is well formed. *)
Lemma well_formed_shape fa : well_formed fa ->
  shape fa (zlen (table fa)) (get_nsymbols fa) (is_deterministic fa) (cell fa) (tok fa).
Proof.
  intros (A & B & C & D & E & F). constructor; auto.
  - unfold get_nsymbols. destruct (is_deterministic fa); lia.
  - intros s r R. apply E. eapply zget_In; exact R.
Qed.

Definition good_cells (n k : Z) (det : bool) (cf : Z -> Z -> Z) (tf : Z -> Z) : Prop :=
  0 < n /\ 0 <= k /\ 0 < k + (if det then 0 else 2) /\
  (forall s c, 0 <= s < n -> 0 <= c < k + (if det then 0 else 2) -> -1 <= cf s c < n) /\
  (forall s, 0 <= s < n -> -1 <= tf s).

Lemma shape_well_formed fa n k det cf tf :
  shape fa n k det cf tf -> good_cells n k det cf tf -> well_formed fa.
Proof.
  intros H (A & B & C & D & E). unfold well_formed. rewrite (shape_nsym _ _ _ _ _ _ H), (sh_nc _ _ _ _ _ _ H).
  rewrite (sh_n _ _ _ _ _ _ H), (sh_t _ _ _ _ _ _ H).
  split; [exact C|]. split; [exact B|]. split; [intros X; pose proof (sh_n _ _ _ _ _ _ H) as Y; rewrite X, zlen_nil in Y; lia|].
  split; [reflexivity|]. split.
  - intros row I. apply In_nth_error in I as [i I]. apply zget_nat in I.
    pose proof (zget_bounds _ _ _ I) as Bd. rewrite (sh_n _ _ _ _ _ _ H) in Bd.
    pose proof (sh_rows _ _ _ _ _ _ H _ _ I) as L. rewrite (sh_nc _ _ _ _ _ _ H) in L. split; [exact L|].
    intros t It. apply In_nth_error in It as [j It]. apply zget_nat in It. pose proof (zget_bounds _ _ _ It) as Bj.
    rewrite L in Bj. specialize (D _ _ Bd Bj). rewrite <- (sh_cell _ _ _ _ _ _ H) in D by (rewrite ?(sh_nc _ _ _ _ _ _ H); lia).
    unfold cell in D. rewrite I, It in D. exact D.
  - intros t It. apply In_nth_error in It as [j It]. apply zget_nat in It. pose proof (zget_bounds _ _ _ It) as Bj.
    rewrite (sh_t _ _ _ _ _ _ H) in Bj. specialize (E _ Bj). rewrite <- (sh_tok _ _ _ _ _ _ H) in E by lia.
    unfold tok in E. rewrite It in E. exact E.
Qed.

Lemma well_formed_good fa : well_formed fa ->
  good_cells (zlen (table fa)) (get_nsymbols fa) (is_deterministic fa) (cell fa) (tok fa).
Proof.
  intros W. pose proof (well_formed_shape fa W) as H. destruct W as (A & B & C & D & E & F).
  split; [destruct (table fa); [congruence | rewrite zlen_cons; pose proof (zlen_nonneg l0); lia]|].
  split; [exact B|]. split; [rewrite <- (sh_nc _ _ _ _ _ _ H); exact A|]. split.
  - intros s c Hs Hc. destruct (shape_get _ _ _ _ _ _ s c H Hs Hc) as (r & R & L & V).
    destruct (E r (zget_In _ _ _ R)) as [_ G]. apply G. eapply zget_In; exact V.
  - intros s Hs. unfold tok. destruct (zget_in_range (accepted_tokens fa) s) as [t T]; [lia|]. rewrite T.
    apply F. eapply zget_In; exact T.
Qed.

(** out-of-range cells and tokens read as -1 *)
Lemma cell_out fa s c : well_formed fa -> cell fa s c <> -1 -> 0 <= s < zlen (table fa) /\ 0 <= c < ncols fa.
Proof.
  intros W. unfold cell. destruct (zget (table fa) s) as [r| |] eqn:R; try congruence.
  destruct (zget r c) as [v| |] eqn:V; try congruence. intros _.
  pose proof (zget_bounds _ _ _ R). pose proof (zget_bounds _ _ _ V). destruct W as (A & B & C & D & E & F).
  destruct (E r (zget_In _ _ _ R)) as [L _]. lia.
Qed.

Lemma tok_out fa s : well_formed fa -> tok fa s <> -1 -> 0 <= s < zlen (table fa) /\ 0 <= tok fa s.
Proof.
  intros W. unfold tok. destruct (zget (accepted_tokens fa) s) as [r| |] eqn:R; try congruence. intros Ne.
  pose proof (zget_bounds _ _ _ R). destruct W as (A & B & C & D & E & F). specialize (F r (zget_In _ _ _ R)). lia.
Qed.

Lemma cell_range fa s c : well_formed fa -> -1 <= cell fa s c < zlen (table fa).
Proof.
  intros W. pose proof (well_formed_good fa W) as (A & B & C & D & E).
  destruct (Z.eq_dec (cell fa s c) (-1)) as [->|Ne]; [lia|].
  destruct (cell_out fa s c W Ne). apply D; [assumption|]. rewrite <- (sh_nc _ _ _ _ _ _ (well_formed_shape fa W)). assumption.
Qed.

Lemma tok_range fa s : well_formed fa -> -1 <= tok fa s.
Proof. intros W. destruct (Z.eq_dec (tok fa s) (-1)) as [->|Ne]; [lia|]. destruct (tok_out fa s W Ne). lia. Qed.

(** append_states: the other automaton's rows, shifted *)
Definition shift (o t : Z) : Z := if t <? 0 then -1 else t + o.

Lemma append_shape fa other n k (det : bool) cf tf :
  shape fa n k det cf tf -> well_formed other -> get_nsymbols other = k -> 0 < k + (if det then 0 else 2) ->
  (is_deterministic other = true \/ det = false) ->
  exists fa', append_states fa other = Ok fa' /\
  shape fa' (n + zlen (table other)) k det
    (fun s c => if s <? n then cf s c else shift n (cell other (s - n) c))
    (fun s => if s <? n then tf s else tok other (s - n)).
Proof.
  intros H W Hk Hd Hdet. unfold append_states.
  pose proof (well_formed_shape other W) as HO. pose proof (well_formed_good other W) as (O1 & O2 & O3 & O4 & O5).
  pose proof (shape_nonneg _ _ _ _ _ _ H) as Hn.
  rewrite Hk, (shape_nsym _ _ _ _ _ _ H), Z.eqb_refl. cbn [check bind].
  rewrite (sh_det _ _ _ _ _ _ H).
  replace (is_deterministic other || negb det) with true by (destruct Hdet as [-> | ->]; [reflexivity | destruct (is_deterministic other); reflexivity]).
  cbn [check bind]. rewrite (shape_nstates _ _ _ _ _ _ H Hd). cbn [bind].
  rewrite (shape_nstates _ _ _ _ _ _ HO O3). cbn [bind].
  set (m := zlen (table other)) in *.
  pose proof (sh_nc _ _ _ _ _ _ HO) as NC.
  destruct (forM_invariant (fun i fa' => shape fa' (n + i) k det (fun s c => if s <? n then cf s c else -1)
              (fun s => if s <? n then tf s else tok other (s - n))) m fa
              (fun fa0 other_state => '(fa1, my_state) <- add_state fa0 ;; token <- accepts other other_state ;;
                 (if 0 <=? token then add_accept fa1 my_state token else Ok fa1))) as (fa1 & E1 & S1).
  - lia.
  - replace (n + 0) with n by lia. eapply shape_ext; [exact H | |]; intros s; intros; destruct (Z.ltb_spec s n); lia.
  - intros i fa0 Hi H0. destruct (add_state_shape _ _ _ _ _ _ H0 Hd) as (fa1 & -> & S1). cbn [bind].
    rewrite (shape_accepts _ _ _ _ _ _ i HO Hi). cbn [bind]. specialize (O5 i Hi).
    destruct (Z.leb_spec 0 (tok other i)) as [P|P].
    + destruct (add_accept_shape _ _ _ _ _ _ (n + i) (tok other i) S1 ltac:(lia) P) as (fa2 & -> & S2).
      eexists. split; [reflexivity|]. replace (n + (i + 1)) with (n + i + 1) by lia.
      eapply shape_ext; [exact S2 | |]; cbn beta; intros s; intros.
      * destruct (Z.eqb_spec s (n + i)); [destruct (Z.ltb_spec s n); lia | reflexivity].
      * destruct (Z.eqb_spec s (n + i)) as [->|]; [|reflexivity].
        destruct (Z.ltb_spec (n + i) n); [lia|]. f_equal; lia.
    + eexists. split; [reflexivity|]. replace (n + (i + 1)) with (n + i + 1) by lia.
      eapply shape_ext; [exact S1 | |]; cbn beta; intros s; intros.
      * destruct (Z.eqb_spec s (n + i)); [destruct (Z.ltb_spec s n); lia | reflexivity].
      * destruct (Z.eqb_spec s (n + i)) as [->|]; [|reflexivity].
        destruct (Z.ltb_spec (n + i) n); [lia|]. replace (n + i - n) with i by lia. lia.
  - rewrite E1. cbn [bind].
    set (tf' := fun s => if s <? n then tf s else tok other (s - n)) in *.
    destruct (forM_invariant (fun i fa' => shape fa' (n + m) k det
                (fun s c => if s <? n then cf s c else if s <? n + i then shift n (cell other (s - n) c) else -1) tf') m fa1
                (fun fa0 other_state => forM (ncols other) fa0 (fun fa2 symbol =>
                   other_next <- step other other_state symbol ;;
                   (if other_next <? 0 then Ok fa2 else add_transition fa2 (other_state + n) symbol (other_next + n)))))
      as (fa2 & E2 & S2).
    + lia.
    + eapply shape_ext; [exact S1 | |]; cbn beta; intros s; intros; [|reflexivity].
      destruct (Z.ltb_spec s n); [reflexivity|]. destruct (Z.ltb_spec s (n + 0)); [lia | reflexivity].
    + intros i fa0 Hi H0.
      destruct (forM_invariant (fun j fa' => shape fa' (n + m) k det
                (fun s c => if s <? n then cf s c else if (s <? n + i) || ((s =? n + i) && (c <? j)) then shift n (cell other (s - n) c) else -1) tf')
                (ncols other) fa0 (fun fa2 symbol =>
                   other_next <- step other i symbol ;;
                   (if other_next <? 0 then Ok fa2 else add_transition fa2 (i + n) symbol (other_next + n))))
        as (fa3 & E3 & S3).
      * lia.
      * eapply shape_ext; [exact H0 | |]; cbn beta; intros s; intros; [|reflexivity].
        destruct (Z.ltb_spec s n); [reflexivity|]. destruct (Z.ltb_spec s (n + i)); [reflexivity|]. cbn [orb].
        destruct (Z.eqb_spec s (n + i)); cbn [andb]; [|reflexivity]. destruct (Z.ltb_spec c 0); [lia | reflexivity].
      * intros j fa3 Hj H3. rewrite NC in Hj.
        rewrite (shape_step _ _ _ _ _ _ i j HO Hi Hj). cbn [bind].
        pose proof (O4 i j Hi Hj) as R.
        destruct (Z.ltb_spec (cell other i j) 0) as [Lt|Ge].
        -- eexists. split; [reflexivity|]. eapply shape_ext; [exact H3 | |]; cbn beta; intros s; intros; [|reflexivity].
           destruct (Z.ltb_spec s n); [reflexivity|]. destruct (Z.ltb_spec s (n + i)); [reflexivity|]. cbn [orb].
           destruct (Z.eqb_spec s (n + i)) as [->|]; cbn [andb]; [|reflexivity].
           destruct (Z.ltb_spec c j), (Z.ltb_spec c (j + 1)); try lia; try reflexivity.
           assert (c = j) as -> by lia. replace (n + i - n) with i by lia. unfold shift.
           destruct (Z.ltb_spec (cell other i j) 0); lia.
        -- assert (0 <= j < k + (if det then 0 else 2)) as Hj'.
           { destruct Hdet as [Eq | ->]; [rewrite Eq in Hj; rewrite Hk in Hj; destruct det; lia | rewrite Hk in Hj; destruct (is_deterministic other); lia]. }
           destruct (add_transition_shape _ _ _ _ _ _ (i + n) j (cell other i j + n) H3) as (fa4 & -> & S4); try lia.
           { cbn beta. destruct (Z.ltb_spec (i + n) n); [lia|]. destruct (Z.ltb_spec (i + n) (n + i)); [lia|]. cbn [orb].
             destruct (Z.ltb_spec j j); [lia|]. rewrite andb_false_r. reflexivity. }
           eexists. split; [reflexivity|]. eapply shape_ext; [exact S4 | |]; cbn beta; intros s; intros; [|reflexivity].
           destruct (Z.ltb_spec s n).
           { destruct (Z.eqb_spec s (i + n)); [lia|]. reflexivity. }
           destruct (Z.ltb_spec s (n + i)).
           { destruct (Z.eqb_spec s (i + n)); [lia|]. reflexivity. }
           cbn [orb]. destruct (Z.eqb_spec s (i + n)) as [->|]; cbn [andb].
           ++ destruct (Z.eqb_spec (i + n) (n + i)); [|lia]. cbn [andb].
              destruct (Z.eqb_spec c j) as [->|].
              ** destruct (Z.ltb_spec j (j + 1)); [|lia]. replace (i + n - n) with i by lia. unfold shift.
                 destruct (Z.ltb_spec (cell other i j) 0); lia.
              ** destruct (Z.ltb_spec c j), (Z.ltb_spec c (j + 1)); try lia; reflexivity.
           ++ destruct (Z.eqb_spec s (n + i)); [lia|]. reflexivity.
      * rewrite E3. eexists. split; [reflexivity|]. eapply shape_ext; [exact S3 | |]; cbn beta; intros s; intros; [|reflexivity].
        destruct (Z.ltb_spec s n); [reflexivity|].
        destruct (Z.ltb_spec s (n + i)); [cbn [orb]; destruct (Z.ltb_spec s (n + (i + 1))); [reflexivity | lia]|]. cbn [orb].
        destruct (Z.eqb_spec s (n + i)) as [->|]; cbn [andb].
        -- destruct (Z.ltb_spec (n + i) (n + (i + 1))); [|lia].
           destruct (Z.ltb_spec c (ncols other)) as [|Ge]; [reflexivity|].
           replace (n + i - n) with i by lia. unfold shift, cell.
           destruct (zget (table other) i) as [r| |] eqn:R; try reflexivity.
           destruct (zget r c) as [v| |] eqn:V; try reflexivity.
           pose proof (zget_bounds _ _ _ V) as Bv. rewrite (sh_rows _ _ _ _ _ _ HO _ _ R) in Bv. lia.
        -- destruct (Z.ltb_spec s (n + (i + 1))); [lia | reflexivity].
    + rewrite E2. eexists. split; [reflexivity|]. eapply shape_ext; [exact S2 | |]; cbn beta; intros s; intros; [|reflexivity].
      destruct (Z.ltb_spec s n); [reflexivity|]. destruct (Z.ltb_spec s (n + m)); [reflexivity | lia].
Qed.
