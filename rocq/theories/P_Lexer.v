(** The lexer cuts text by the longest match rule. *)
From Verif Require Import Prelude M_Automaton S_Automaton P_Automaton P_Automaton2 P_Automaton3 P_Automaton7 M_Lexer S_Lexer.
Local Open Scope Z_scope.

(* ------------------------------------------------------------------ *)
(** Positions *)

Definition pstep (q : Z * Z * list Z) (c : Z) : Z * Z * list Z :=
  let '(l, k, t) := q in if c =? 10 then (l + 1, 1, []) else (l, k + 1, t ++ [c]).
Definition pos (w : list Z) : Z * Z * list Z := fold_left pstep w (1, 1, []).

Lemma pos_snoc w c : pos (w ++ [c]) = pstep (pos w) c.
Proof. unfold pos. rewrite fold_left_app. reflexivity. Qed.

Lemma pos_placed w : let '(l, c, t) := pos w in placed w l c t.
Proof.
  induction w as [|x w IH] using rev_ind.
  - cbn. split; [reflexivity|]. split; [reflexivity|]. split; [intros []|]. exists []. auto.
  - rewrite pos_snoc. destruct (pos w) as [[l c] t]. destruct IH as (L & C & N & b & E & B). unfold pstep.
    destruct (Z.eqb_spec x 10) as [->|Nx].
    + split; [rewrite filter_app; cbn [filter Z.eqb Pos.eqb]; rewrite zlen_snoc; lia|]. split; [reflexivity|]. split; [intros []|].
      exists (w ++ [10]). rewrite app_nil_r. split; [reflexivity|]. right. eauto.
    + split; [rewrite filter_app; cbn [filter]; destruct (Z.eqb_spec x 10); [congruence|]; rewrite app_nil_r; exact L|].
      split; [rewrite zlen_snoc; lia|]. split; [intros X; apply in_app_or in X as [X|[X|[]]]; [auto | congruence]|].
      exists b. split; [rewrite E, app_assoc; reflexivity | exact B].
Qed.

Lemma pos_line_text B p : ~ In 10 p -> snd (pos (B ++ p)) = snd (pos B) ++ p.
Proof.
  induction p as [|c p IH] using rev_ind; intros N; [rewrite !app_nil_r; reflexivity|].
  rewrite app_assoc, pos_snoc. assert (~ In 10 p) as Np by (intros X; apply N; apply in_or_app; auto).
  assert (c <> 10) as Nc by (intros ->; apply N; apply in_or_app; right; left; reflexivity).
  specialize (IH Np). destruct (pos (B ++ p)) as [[l k] t]. cbn [snd] in IH. unfold pstep. destruct (Z.eqb_spec c 10); [congruence|].
  cbn [snd]. rewrite IH, app_assoc. reflexivity.
Qed.

(* ------------------------------------------------------------------ *)
(** Following a deterministic automaton *)

Section Lexer.
Variable d : automaton.
Hypothesis W : well_formed d.
Hypothesis D : is_deterministic d = true.
Hypothesis K : get_nsymbols d = NCHARS.
Let n := zlen (table d).

Local Lemma Sh : shape d n NCHARS true (cell d) (tok d).
Proof. pose proof (well_formed_shape d W) as H. rewrite D, K in H. exact H. Qed.
Local Lemma Hn : 0 < n.
Proof. destruct (well_formed_good d W) as (X & _). exact X. Qed.

Fixpoint walk (s : Z) (w : list Z) : Z :=
  match w with [] => s | x :: w => if cell d s x =? -1 then -1 else walk (cell d s x) w end.

Lemma walk_dead w : forall s, s = -1 -> walk s w = -1 \/ w = [].
Proof.
  destruct w as [|x w]; intros s ->; [auto|]. left. cbn [walk].
  destruct (Z.eqb_spec (cell d (-1) x) (-1)) as [|N]; [reflexivity|]. destruct (cell_out d (-1) x W N). lia.
Qed.

Lemma walk_app u v s : walk s (u ++ v) = if walk s u =? -1 then -1 else walk (walk s u) v.
Proof.
  revert s. induction u as [|x u IH]; intros s; cbn [walk app].
  - destruct (Z.eqb_spec s (-1)) as [E|E]; [|reflexivity]. destruct (walk_dead v s E) as [X| ->]; [exact X | exact E].
  - destruct (cell d s x =? -1); [reflexivity | apply IH].
Qed.

Lemma walk_range w : forall s, 0 <= s < n -> -1 <= walk s w < n.
Proof.
  induction w as [|x w IH]; intros s Rs; cbn [walk]; [lia|]. pose proof Hn. pose proof (cell_range d s x W) as R. fold n in R.
  destruct (Z.eqb_spec (cell d s x) (-1)); [lia|]. apply IH. lia.
Qed.

Lemma run_walk w : forall s, 0 <= s < n -> (forall x, In x w -> 0 <= x < NCHARS) ->
  run d s w = Ok (if walk s w =? -1 then -1 else tok d (walk s w)).
Proof.
  induction w as [|x w IH]; intros s Rs Ov; cbn [run walk].
  - destruct (Z.eqb_spec s (-1)); [lia|]. apply (shape_accepts _ _ _ _ _ _ s Sh Rs).
  - assert (0 <= x < NCHARS) as Rx by (apply Ov; left; reflexivity).
    rewrite (shape_step _ _ _ _ _ _ s x Sh Rs) by lia. cbn [bind]. pose proof (cell_range d s x W) as R. fold n in R.
    destruct (Z.eqb_spec (cell d s x) (-1)); [reflexivity|]. apply IH; [lia | intros; apply Ov; right; assumption].
Qed.

Lemma path_walk w : forall s t, 0 <= s < n -> path d s w t -> walk s w = t /\ t <> -1.
Proof.
  intros s t Rs P. induction P as [s|s x t w u Hx Hs Ht _ IH|s e t w u He Hs Ht _ IH].
  - split; [reflexivity | lia].
  - apply step_cell in Hs. cbn [walk]. rewrite Hs. pose proof (cell_range d s x W) as R. fold n in R. destruct (Z.eqb_spec t (-1)); [congruence|].
    apply IH. lia.
  - exfalso. apply step_cell in Hs. destruct (cell_out d s e W ltac:(congruence)) as [_ X]. rewrite (sh_nc _ _ _ _ _ _ Sh) in X. rewrite K in He. lia.
Qed.

Lemma walk_path w : forall s, 0 <= s < n -> (forall x, In x w -> 0 <= x < NCHARS) -> walk s w <> -1 -> path d s w (walk s w).
Proof.
  induction w as [|x w IH]; intros s Rs Ov N; cbn [walk] in *; [constructor|].
  assert (0 <= x < NCHARS) as Rx by (apply Ov; left; reflexivity). pose proof (cell_range d s x W) as R. fold n in R.
  destruct (Z.eqb_spec (cell d s x) (-1)); [congruence|].
  apply (path_symbol d s x (cell d s x)); [rewrite K; exact Rx | apply (shape_step _ _ _ _ _ _ s x Sh Rs); lia | assumption|].
  apply IH; [lia | intros; apply Ov; right; assumption | exact N].
Qed.

(** characters *)
Definition goes (p : list Z) (s : Z) : Prop := exists sy, mapM get_symbol p = Ok sy /\ walk 0 sy = s.

Lemma symbols_range p sy : mapM get_symbol p = Ok sy -> forall x, In x sy -> 0 <= x < NCHARS.
Proof. intros E. pose proof (symbols_over d p sy K E) as O. unfold over in O. rewrite K in O. exact O. Qed.

Lemma goes_fun p s t : goes p s -> goes p t -> s = t.
Proof. intros (a & Ea & Wa) (b & Eb & Wb). rewrite Ea in Eb. injection Eb as ->. congruence. Qed.
Lemma goes_range p s : goes p s -> -1 <= s < n.
Proof. intros (sy & _ & <-). apply walk_range. pose proof Hn; lia. Qed.
Lemma goes_nil : goes [] 0.
Proof. exists []. auto. Qed.

Lemma goes_reads p s : goes p s -> reads d p (if s =? -1 then -1 else tok d s).
Proof.
  intros (sy & E & Ws). exists sy. split; [exact E|]. rewrite run_walk; [rewrite Ws; reflexivity | pose proof Hn; lia | eapply symbols_range; exact E].
Qed.
Lemma reads_goes p m : reads d p m -> exists s, goes p s /\ m = if s =? -1 then -1 else tok d s.
Proof.
  intros (sy & E & R). exists (walk 0 sy). split; [exists sy; auto|].
  rewrite run_walk in R; [injection R as <-; reflexivity | pose proof Hn; lia | eapply symbols_range; exact E].
Qed.
Lemma reads_fun p m m' : reads d p m -> reads d p m' -> m = m'.
Proof. intros (a & Ea & Ra) (b & Eb & Rb). rewrite Ea in Eb. injection Eb as ->. congruence. Qed.

Lemma goes_app_inv p q s : goes (p ++ q) s -> exists t, goes p t /\ (t = -1 -> s = -1).
Proof.
  intros (sy & E & Ws). apply mapM_app_inv in E as (a & b & -> & Ea & Eb). exists (walk 0 a). split; [exists a; auto|].
  intros X. rewrite walk_app, X in Ws. cbn in Ws. congruence.
Qed.
Lemma goes_snoc p s c x : goes p s -> s <> -1 -> get_symbol c = Ok x -> goes (p ++ [c]) (cell d s x).
Proof.
  intros (sy & E & Ws) N C. exists (sy ++ [x]). split; [apply mapM_app_intro; [exact E | cbn; rewrite C; reflexivity]|].
  rewrite walk_app, Ws. destruct (Z.eqb_spec s (-1)); [congruence|]. cbn [walk]. destruct (Z.eqb_spec (cell d s x) (-1)); congruence.
Qed.

Lemma stuck_goes w : stuck d w -> goes w (-1).
Proof.
  intros (c & v & s & -> & Ev & x & t & Ec & P & St). apply path_walk in P as [Pw Nt]; [|pose proof Hn; lia].
  apply step_cell in St. rewrite <- St. apply goes_snoc; [exists s; auto | exact Nt | exact Ec].
Qed.
Lemma goes_stuck v s c x : goes v s -> s <> -1 -> get_symbol c = Ok x -> cell d s x = -1 -> stuck d (v ++ [c]).
Proof.
  intros (sy & E & Ws) N C X. exists c, v, sy. split; [reflexivity|]. split; [exact E|]. exists x, s. split; [exact C|].
  pose proof Hn as N0. pose proof (goes_range v s (ex_intro _ sy (conj E Ws))) as Rs. split.
  - rewrite <- Ws. apply walk_path; [lia | eapply symbols_range; exact E | congruence].
  - apply get_symbol_inv in C as (_ & Rx & _). rewrite (shape_step _ _ _ _ _ _ s x Sh) by lia. congruence.
Qed.

(** prefixes *)
Lemma prefixes {A} (a b c e : list A) : a ++ b = c ++ e -> (exists z, c = a ++ z /\ b = z ++ e) \/ (exists z, a = c ++ z /\ e = z ++ b /\ z <> []).
Proof.
  revert c. induction a as [|x a IH]; intros c E; [left; exists c; auto|].
  destruct c as [|y c]; [right; exists (x :: a); cbn in E |- *; split; [reflexivity|]; split; [auto | discriminate]|].
  cbn in E. injection E as -> E. destruct (IH c E) as [(z & -> & ->)|(z & -> & -> & N)]; [left; exists z; auto | right; exists z; auto].
Qed.

Lemma longest_unique p rest m p' rest' m' : longest d p rest m -> longest d p' rest' m' -> p ++ rest = p' ++ rest' ->
  p = p' /\ rest = rest' /\ m = m'.
Proof.
  intros (N & M & R & L) (N' & M' & R' & L') E. destruct (prefixes _ _ _ _ E) as [(z & -> & ->)|(z & -> & -> & Nz)].
  - destruct z as [|c z]; [rewrite app_nil_r in *; cbn in *; split; [reflexivity|]; split; [reflexivity | eapply reads_fun; eassumption]|].
    exfalso. apply M'. eapply (L (c :: z) rest'); [reflexivity | discriminate | exact R'].
  - exfalso. apply M. eapply (L' z rest); [reflexivity | exact Nz | exact R].
Qed.

(* ------------------------------------------------------------------ *)
(** One token *)

(** while the text p of a token is being read, the text before it being B *)
Record scanning (B p : list Z) (r : lexing) : Prop := {
  sc_goes : goes p (lexer_state r);
  sc_alive : lexer_state r <> -1;
  sc_text : lexer_text r = p;
  sc_pos : (line r, column r, line_text r) = pos (B ++ p);
  sc_acc :
    (lexer_token r = -1 /\ forall u v m, p = u ++ v -> u <> [] -> reads d u m -> m = -1) \/
    (exists u v, p = u ++ v /\ u <> [] /\ last_lexer_accept r = zlen u /\ lexer_token r <> -1 /\ reads d u (lexer_token r) /\
       (last_lexer_accept_line r, last_lexer_accept_column r, last_lexer_accept_line_text r) = pos (B ++ u) /\
       forall q e m, v = q ++ e -> q <> [] -> reads d (u ++ q) m -> m = -1) }.

Definition fresh (B : list Z) (r : lexing) : Prop :=
  lexer_state r = 0 /\ lexer_text r = [] /\ lexer_token r = -1 /\ (line r, column r, line_text r) = pos B.

Lemma fresh_scanning B r : fresh B r -> scanning B [] r.
Proof.
  intros (S0 & T & K0 & P). constructor.
  - rewrite S0. apply goes_nil.
  - rewrite S0. lia.
  - exact T.
  - rewrite app_nil_r. exact P.
  - left. split; [exact K0|]. intros u v m E N. symmetry in E. apply app_eq_nil in E as [-> _]. congruence.
Qed.

Lemma zlen_app_snoc_prefix {A} (u v q : list A) (c : A) z : v ++ [c] = q ++ z -> q <> [] -> (exists z', v = q ++ z') \/ (q = v ++ [c]).
Proof.
  intros E N. destruct (prefixes _ _ _ _ E) as [(y & -> & Hy)|(y & -> & -> & Ny)].
  - destruct y as [|a y]; [left; exists []; rewrite !app_nil_r; reflexivity|]. right. cbn in Hy. injection Hy as <- Hy.
    symmetry in Hy. apply app_eq_nil in Hy as [-> ->]. reflexivity.
  - left. exists y. reflexivity.
Qed.

Lemma scan_step B p r c x : scanning B p r -> get_symbol c = Ok x -> cell d (lexer_state r) x <> -1 ->
  scanning B (p ++ [c]) (note_accept (tok d (cell d (lexer_state r) x)) (update_position c (push_char c (cell d (lexer_state r) x) r))).
Proof.
  intros [G A T P C] E N. set (t := cell d (lexer_state r) x) in *.
  assert (goes (p ++ [c]) t) as Gt by (apply goes_snoc; assumption).
  pose proof (goes_reads _ _ Gt) as Rt. destruct (Z.eqb_spec t (-1)); [congruence|].
  set (r2 := update_position c (push_char c t r)).
  assert (lexer_state r2 = t) as S2 by (unfold r2, update_position; destruct (c =? 10); reflexivity).
  assert (lexer_text r2 = p ++ [c]) as T2 by (unfold r2, update_position; destruct (c =? 10); cbn; rewrite T; reflexivity).
  assert (lexer_token r2 = lexer_token r) as K2 by (unfold r2, update_position; destruct (c =? 10); reflexivity).
  assert (last_lexer_accept r2 = last_lexer_accept r) as L2 by (unfold r2, update_position; destruct (c =? 10); reflexivity).
  assert ((last_lexer_accept_line r2, last_lexer_accept_column r2, last_lexer_accept_line_text r2) =
          (last_lexer_accept_line r, last_lexer_accept_column r, last_lexer_accept_line_text r)) as LP by (unfold r2, update_position; destruct (c =? 10); reflexivity).
  assert ((line r2, column r2, line_text r2) = pos (B ++ (p ++ [c]))) as P2.
  { rewrite app_assoc, pos_snoc, <- P. unfold r2, update_position, pstep. destruct (c =? 10); reflexivity. }
  unfold note_accept. destruct (Z.eqb_spec (tok d t) (-1)) as [Et|Et].
  - constructor; [rewrite S2; exact Gt | rewrite S2; exact N | exact T2 | exact P2|].
    rewrite Et in Rt. destruct C as [[K0 No]|(u & v & Ep & Nu & Lu & Ku & Ru & Pu & Lg)].
    + left. split; [congruence|]. intros u v m Eu Nu Ru. destruct (zlen_app_snoc_prefix [] p u c v Eu Nu) as [[z ->]| ->].
      * eapply No; [reflexivity | exact Nu | exact Ru].
      * eapply reads_fun; [exact Ru | exact Rt].
    + right. exists u, (v ++ [c]). rewrite L2, K2, LP. split; [rewrite Ep, app_assoc; reflexivity|]. split; [exact Nu|]. split; [exact Lu|].
      split; [exact Ku|]. split; [exact Ru|]. split; [exact Pu|]. intros q e m Eq Nq Rq.
      destruct (zlen_app_snoc_prefix [] v q c e Eq Nq) as [[z ->]| ->].
      * eapply Lg; [reflexivity | exact Nq | exact Rq].
      * eapply reads_fun; [exact Rq|]. rewrite app_assoc, <- Ep. exact Rt.
  - constructor; cbn [lexer_state lexer_text line column line_text lexer_token last_lexer_accept last_lexer_accept_line last_lexer_accept_column last_lexer_accept_line_text];
      [rewrite S2; exact Gt | rewrite S2; exact N | exact T2 | exact P2|].
    right. exists (p ++ [c]), []. rewrite app_nil_r. split; [reflexivity|]. split; [intros X; apply app_eq_nil in X as [_ X]; discriminate|].
    split; [rewrite T2; reflexivity|]. split; [exact Et|]. split; [exact Rt|]. split; [exact P2|].
    intros q e m Eq Nq. symmetry in Eq. apply app_eq_nil in Eq as [-> _]. congruence.
Qed.

(** nothing the rule could start with that the lexer would find *)
Definition hopeless (x : list Z) : Prop := forall u rest m, x = u ++ rest -> longest d u rest m ->
  rest = [] \/ (exists q e, rest = q ++ e /\ q <> [] /\ stuck d (u ++ q)) -> False.

Lemma text_in_line B p r c : scanning B p r -> set_count 10 (p ++ [c]) = false -> (zlen (p ++ [c]) <=? zlen (line_text r ++ [c])) = true.
Proof.
  intros [G A T P C] N. apply Z.leb_le. assert (~ In 10 p) as Np.
  { intros X. assert (set_count 10 (p ++ [c]) = true) by (apply set_count_In, in_or_app; auto). congruence. }
  pose proof (pos_line_text B p Np) as X. rewrite <- P in X. cbn [snd] in X. rewrite X, !zlen_snoc, zlen_app. pose proof (zlen_nonneg (snd (pos B))). lia.
Qed.

Lemma scan_end B p r out : scanning B p r ->
  (lex_loop 1 d r [] out = Ok (out, false) /\ hopeless p) \/
  (exists t, (forall f, lex_loop (S f) d r [] out = Ok (out ++ [t], true)) /\ longest d p [] (lm_token t) /\ lm_text t = p /\
     (lm_line t, lm_column t, lm_line_text t) = pos (B ++ p)).
Proof.
  intros Sc. pose proof Sc as [G A T P C]. cbn [lex_loop].
  assert (forall u rest q e, p = u ++ rest -> rest = q ++ e -> stuck d (u ++ q) -> False) as Alive.
  { intros u rest q e E1 E2 St. apply stuck_goes in St. rewrite E1, E2, app_assoc in G. destruct (goes_app_inv _ _ _ G) as (t & Gt & Ht).
    apply A, Ht. eapply goes_fun; eassumption. }
  destruct C as [[K0 No]|(u & v & Ep & Nu & Lu & Ku & Ru & Pu & Lg)].
  - left. split.
    + destruct (last_lexer_accept r <? zlen (lexer_text r)); [reflexivity|]. unfold at_lexer_end. rewrite K0. cbn [Z.eqb Pos.eqb].
      destruct (set_count 10 (lexer_text r)) eqn:Sn; [reflexivity|]. rewrite T in *.
      assert ((zlen p <=? zlen (line_text r)) = true) as ->; [|reflexivity]. apply Z.leb_le.
      assert (~ In 10 p) as Np by (rewrite <- set_count_In; congruence). pose proof (pos_line_text B p Np) as X. rewrite <- P in X.
      cbn [snd] in X. rewrite X, zlen_app. pose proof (zlen_nonneg (snd (pos B))). lia.
    + intros u rest m E (Nu & Nm & Ru & _) _. apply Nm. eapply No; eassumption.
  - rewrite Lu, T. destruct (Z.ltb_spec (zlen u) (zlen p)) as [Lt|Ge].
    + left. split; [reflexivity|]. intros u' rest m E (Nu' & Nm & Ru' & _) [->|(q & e & Eq & Nq & St)]; [|eapply Alive; eassumption].
      rewrite app_nil_r in E. subst u'. apply Nm. eapply (Lg v []); [rewrite app_nil_r; reflexivity | | rewrite <- Ep; exact Ru'].
      intros ->. rewrite app_nil_r in Ep. subst u. lia.
    + right. assert (v = []) as -> by (destruct v as [|y v]; [reflexivity|]; rewrite Ep, zlen_app, zlen_cons in Ge; pose proof (zlen_nonneg v); lia).
      rewrite app_nil_r in Ep. subst u. exists (mk_lexeme (lexer_token r) p (last_lexer_accept_line r) (last_lexer_accept_column r) (last_lexer_accept_line_text r)).
      split; [|split; [|split]].
      * intros f. unfold at_lexer_end. destruct (Z.eqb_spec (lexer_token r) (-1)); [congruence|]. unfold backtrack_to_last_accept.
        rewrite Lu, T. cbn [bind lexer_token lexer_text line column line_text].
        replace (firstn (Z.to_nat (zlen p)) p) with p; [reflexivity|]. unfold zlen. rewrite Nat2Z.id, firstn_all. reflexivity.
      * cbn [lm_token]. split; [exact Nu|]. split; [exact Ku|]. split; [exact Ru|]. intros q e m Eq Nq. symmetry in Eq. apply app_eq_nil in Eq as [-> _]. congruence.
      * reflexivity.
      * exact Pu.
Qed.

Lemma char_cases c : -128 <= c < 128 -> (is_symbol c = Ok false /\ get_symbol c = Abort) \/ (exists x, is_symbol c = Ok true /\ get_symbol c = Ok x /\ 0 <= x < NCHARS).
Proof.
  intros R. unfold is_symbol, get_symbol. destruct (Z.ltb_spec c 0) as [L|L].
  - left. split; [reflexivity|]. destruct (Z.leb_spec 0 c); [lia | reflexivity].
  - destruct (Z.leb_spec 0 c); [|lia]. destruct (zget_in_range chartab c) as [x E]; [split; [lia|]; vm_compute (zlen chartab); lia|].
    rewrite E. cbn [bind check]. destruct (Z.leb_spec 0 x) as [G|G]; [|left; auto].
    right. exists x. split; [reflexivity|]. split; [reflexivity|].
    assert (get_symbol c = Ok x) as Gs by (unfold get_symbol; rewrite E; destruct (Z.leb_spec 0 c); [|lia]; cbn [bind check]; destruct (Z.leb_spec 0 x); [reflexivity | lia]).
    apply get_symbol_inv in Gs. tauto.
Qed.

Lemma scan B : forall q p r out, (forall c, In c q -> -128 <= c < 128) -> scanning B p r ->
  (exists k, (k <= length q + 1)%nat /\ (forall f, lex_loop (k + f) d r q out = Ok (out, false)) /\ hopeless (p ++ q)) \/
  (exists k t, (k <= length q + 1)%nat /\ (forall f, lex_loop (k + f) d r q out = Ok (out ++ [t], true)) /\
     longest d (p ++ q) [] (lm_token t) /\ lm_text t = p ++ q /\ (lm_line t, lm_column t, lm_line_text t) = pos (B ++ (p ++ q))) \/
  (exists k t u rest r', (k <= length q + 1)%nat /\ (forall f, lex_loop (k + f) d r q out = lex_loop f d r' rest (out ++ [t])) /\
     p ++ q = u ++ rest /\ rest <> [] /\ longest d u rest (lm_token t) /\ lm_text t = u /\
     (lm_line t, lm_column t, lm_line_text t) = pos (B ++ u) /\
     (exists y e, rest = y ++ e /\ y <> [] /\ stuck d (u ++ y)) /\ fresh (B ++ u) r').
Proof.
  induction q as [|c q IH]; intros p r out Ch Sc.
  - rewrite app_nil_r. destruct (scan_end B p r out Sc) as [[E H]|(t & E & L & T & P)].
    + left. exists 1%nat. split; [cbn; lia|]. split; [intros f; exact E | exact H].
    + right; left. exists 1%nat, t. split; [cbn; lia|]. split; [intros f; apply E|]. auto.
  - pose proof Sc as [G A T P C]. pose proof (goes_range _ _ G) as Rs.
    destruct (char_cases c (Ch c (or_introl eq_refl))) as [[Is Gs]|(x & Is & Gs & Rx)].
    + (* a character outside the alphabet *)
      left. exists 1%nat. split; [cbn; lia|]. split; [intros f; cbn [Nat.add lex_loop]; rewrite Is; reflexivity|].
      intros u rest m E (Nu & Nm & (sy & Eu & Ru) & _) H.
      assert (forall a b, p ++ c :: q = a ++ b -> (forall z, p <> a ++ z) -> forall sy, mapM get_symbol a <> Ok sy) as Bad.
      { intros a b Eab Na sy' Ea. destruct (prefixes _ _ _ _ Eab) as [(z & -> & Hz)|(z & -> & _)]; [|eapply Na; reflexivity].
        destruct z as [|y z]; [apply (Na []); rewrite !app_nil_r; reflexivity|]. cbn in Hz. injection Hz as <- Hz.
        apply mapM_app_inv in Ea as (s1 & s2 & _ & _ & Ea). cbn in Ea. rewrite Gs in Ea. discriminate. }
      destruct (prefixes _ _ _ _ E) as [(z & -> & Hz)|(z & -> & -> & Nz)].
      * destruct z as [|y z].
        -- rewrite app_nil_r in *. cbn in Hz. subst rest. destruct H as [H|(y & e & Ey & Ny & St)]; [discriminate|].
           destruct y as [|c' y]; [congruence|]. cbn in Ey. injection Ey as <- Ey. apply stuck_goes in St as (sy' & Es & _).
           apply mapM_app_inv in Es as (s1 & s2 & _ & _ & Es). cbn in Es. rewrite Gs in Es. discriminate.
        -- cbn in Hz. injection Hz as <- Hz. apply mapM_app_inv in Eu as (s1 & s2 & _ & _ & Es). cbn in Es. rewrite Gs in Es. discriminate.
      * destruct H as [H|(y & e & Ey & Ny & St)]; [destruct z; [congruence | discriminate]|].
        apply stuck_goes in St. destruct (prefixes _ _ _ _ Ey) as [(z' & -> & Hz)|(z' & -> & _)].
        -- destruct z' as [|c' z'].
           ++ rewrite app_nil_r in *. apply A. eapply goes_fun; eassumption.
           ++ cbn in Hz. injection Hz as <- Hz. destruct St as (sy' & Es & _). rewrite app_assoc in Es.
              apply mapM_app_inv in Es as (s1 & s2 & _ & _ & Es). cbn in Es. rewrite Gs in Es. discriminate.
        -- rewrite app_assoc in G. destruct (goes_app_inv _ _ _ G) as (t & Gt & Ht). apply A, Ht. eapply goes_fun; eassumption.
    + assert (step d (lexer_state r) x = Ok (cell d (lexer_state r) x)) as St by (apply (shape_step _ _ _ _ _ _ _ x Sh); lia).
      destruct (Z.eqb_spec (cell d (lexer_state r) x) (-1)) as [Dead|Live].
      * (* no way on *)
        pose proof (goes_stuck p (lexer_state r) c x G A Gs Dead) as Sk.
        assert (goes (p ++ [c]) (-1)) as Gd by (apply stuck_goes; exact Sk).
        assert (forall a m, a <> [] -> reads d ((p ++ [c]) ++ a) m -> m = -1) as After.
        { intros a m Na Ra. apply reads_goes in Ra as (s & Gs' & ->). destruct (goes_app_inv _ _ _ Gs') as (t & Gt & Ht).
          rewrite (Ht (goes_fun _ _ _ Gt Gd)). reflexivity. }
        assert (forall m, reads d (p ++ [c]) m -> m = -1) as At by (intros m Rm; eapply reads_fun; [exact Rm | apply (goes_reads _ _ Gd)]).
        assert (forall a b m, p ++ c :: q = a ++ b -> reads d a m -> m <> -1 -> exists z, p = a ++ z) as In_p.
        { intros a b m Eab Ra Nm. destruct (prefixes _ _ _ _ Eab) as [(z & -> & Hz)|(z & -> & _)]; [|exists z; reflexivity].
          destruct z as [|y z]; [exists []; rewrite !app_nil_r; reflexivity|]. cbn in Hz. injection Hz as <- Hz. exfalso. apply Nm.
          destruct z as [|y z]; [apply At; exact Ra|]. apply (After (y :: z)); [discriminate|]. rewrite <- app_assoc. exact Ra. }
        destruct C as [[K0 No]|(u & v & Ep & Nu & Lu & Ku & Ru & Pu & Lg)].
        -- left. exists 1%nat. split; [cbn; lia|]. split.
           ++ intros f. cbn [Nat.add lex_loop]. rewrite Is. cbn [bind negb]. rewrite Gs. cbn [bind]. rewrite St. cbn [bind]. rewrite Dead.
              cbn [Z.eqb Pos.eqb]. unfold at_lexer_end, push_char. cbn [lexer_token lexer_text line_text]. rewrite K0, T. cbn [Z.eqb Pos.eqb].
              destruct (set_count 10 (p ++ [c])) eqn:Sn; [reflexivity|]. rewrite (text_in_line B p r c Sc Sn). reflexivity.
           ++ intros a b m Eab (Na & Nm & Ra & _) _. destruct (In_p a b m Eab Ra Nm) as [z Ez]. apply Nm. eapply No; eassumption.
        -- right; right.
           set (r0 := push_char c (cell d (lexer_state r) x) r).
           exists 1%nat, (mk_lexeme (lexer_token r) u (last_lexer_accept_line r) (last_lexer_accept_column r) (last_lexer_accept_line_text r)), u, (v ++ c :: q),
             (reset_lexer_state (fst (backtrack_to_last_accept r0))).
           split; [cbn; lia|]. split; [|split; [rewrite Ep, <- app_assoc; reflexivity|]].
           ++ intros f. cbn [Nat.add lex_loop]. rewrite Is. cbn [bind negb]. rewrite Gs. cbn [bind]. rewrite St. cbn [bind]. fold r0. rewrite Dead.
              cbn [Z.eqb Pos.eqb]. unfold at_lexer_end. assert (lexer_token r0 = lexer_token r) as -> by reflexivity.
              destruct (Z.eqb_spec (lexer_token r) (-1)); [congruence|].
              assert (backtrack_to_last_accept r0 = (fst (backtrack_to_last_accept r0), v ++ [c])) as ->.
              { unfold backtrack_to_last_accept. cbn [fst]. f_equal. unfold r0, push_char. cbn [last_lexer_accept lexer_text]. rewrite Lu, T, Ep.
                unfold zlen. rewrite Nat2Z.id, <- app_assoc, skipn_app, skipn_all, Nat.sub_diag. reflexivity. }
              cbn [bind]. rewrite <- app_assoc. cbn [app]. do 3 f_equal.
              assert (lexer_text (fst (backtrack_to_last_accept r0)) = u) as ->; [|reflexivity].
              unfold backtrack_to_last_accept, r0, push_char. cbn [fst lexer_text last_lexer_accept]. rewrite Lu, T, Ep.
              unfold zlen. rewrite Nat2Z.id, <- app_assoc, firstn_app, firstn_all, Nat.sub_diag. cbn. apply app_nil_r.
           ++ split; [destruct v; discriminate|]. split; [|split; [reflexivity|split; [exact Pu|split]]].
              ** cbn [lm_token]. split; [exact Nu|]. split; [exact Ku|]. split; [exact Ru|]. intros a e m Ea Na Ra.
                 destruct (Z.eq_dec m (-1)) as [|Nm]; [assumption|]. assert (p ++ c :: q = (u ++ a) ++ e) as E' by (rewrite Ep, <- !app_assoc; f_equal; exact Ea).
                 destruct (In_p _ _ _ E' Ra Nm) as [z Ez]. rewrite Ep, <- app_assoc in Ez. apply app_inv_head in Ez. eapply Lg; eassumption.
              ** exists (v ++ [c]), q. split; [rewrite <- app_assoc; reflexivity|]. split; [destruct v; discriminate|]. rewrite app_assoc, <- Ep. exact Sk.
              ** unfold fresh, reset_lexer_state, backtrack_to_last_accept. cbn [lexer_state lexer_text lexer_token line column line_text fst]. auto.
      * pose proof (scan_step B p r c x Sc Gs Live) as Sc'.
        set (r' := note_accept _ _) in Sc'.
        assert (forall f, lex_loop (S f) d r (c :: q) out = lex_loop f d r' q out) as Ef.
        { intros f. cbn [lex_loop]. rewrite Is. cbn [bind negb]. rewrite Gs. cbn [bind]. rewrite St. cbn [bind].
          destruct (Z.eqb_spec (cell d (lexer_state r) x) (-1)); [congruence|].
          rewrite (shape_accepts _ _ _ _ _ _ (cell d (lexer_state r) x) Sh); [reflexivity|]. pose proof (cell_range d (lexer_state r) x W). unfold n. lia. }
        destruct (IH (p ++ [c]) r' out ltac:(intros; apply Ch; right; assumption) Sc') as [(k & Hk & E & H)|[(k & t & Hk & E & H)|(k & t & u & rest & r2 & Hk & E & H)]];
          rewrite <- app_assoc in H; cbn [app] in H.
        -- left. exists (S k). split; [cbn; lia|]. split; [intros f; cbn [Nat.add]; rewrite Ef; apply E | exact H].
        -- right; left. exists (S k), t. split; [cbn; lia|]. split; [intros f; cbn [Nat.add]; rewrite Ef; apply E | exact H].
        -- right; right. exists (S k), t, u, rest, r2. split; [cbn; lia|]. split; [intros f; cbn [Nat.add]; rewrite Ef; apply E | exact H].
Qed.

(* ------------------------------------------------------------------ *)
(** All of the text *)

Fixpoint positions (B : list Z) (ts : list lexeme) : Prop :=
  match ts with
  | [] => True
  | t :: ts => (lm_line t, lm_column t, lm_line_text t) = pos (B ++ lm_text t) /\ positions (B ++ lm_text t) ts
  end.

Lemma lex_all : forall k x B r out fuel, (length x <= k)%nat -> ((k + 1) * (k + 2) <= fuel)%nat -> (forall c, In c x -> -128 <= c < 128) -> fresh B r ->
  exists new b, lex_loop fuel d r x out = Ok (out ++ new, b) /\ positions B new /\
    (b = true -> munches_stuck d x (cut new)) /\
    (b = false -> (forall ts, ~ munches_stuck d x ts) /\ exists left, munches d x (cut new) left).
Proof.
  induction k as [k IH] using lt_wf_ind. intros x B r out fuel Lx Hf Ch F.
  assert (forall j, (j <= length x + 1)%nat -> fuel = (j + (fuel - j))%nat) as Fl by (intros j Hj; nia).
  destruct (scan B x [] r out Ch (fresh_scanning _ _ F)) as [(j & Hj & E & H)|[(j & t & Hj & E & L & T & P)|(j & t & u & rest & r' & Hj & E & Ex & Nr & L & T & P & Sk & F')]]; cbn [app] in *.
  - rewrite (Fl j Hj), E. exists [], false. rewrite app_nil_r. split; [reflexivity|]. split; [exact Logic.I|]. split; [discriminate|].
    intros _. split; [|exists x; constructor]. intros ts M. inversion M as [p m Lp|p rest m ts' Lp Sp M' E1 E2]; subst.
    + eapply (H x [] m); [symmetry; apply app_nil_r | exact Lp | left; reflexivity].
    + eapply (H p rest m); [reflexivity | exact Lp | right; exact Sp].
  - rewrite (Fl j Hj), E. exists [t], true. split; [reflexivity|]. split; [cbn; rewrite T; auto|]. split; [|discriminate].
    intros _. unfold cut. cbn [map]. rewrite T. constructor. exact L.
  - rewrite (Fl j Hj), E. pose proof L as (Nu & _). assert (length rest < length x)%nat as Lr.
    { rewrite Ex, app_length. destruct u; [congruence | cbn; lia]. }
    destruct (IH (length rest) ltac:(lia) rest (B ++ u) r' (out ++ [t]) (fuel - j)%nat ltac:(lia) ltac:(nia)) as (new & b & En & Pn & Ht & Hf').
    { intros c Hc. apply Ch. rewrite Ex. apply in_or_app. auto. }
    { exact F'. }
    exists (t :: new), b. rewrite En, <- app_assoc. split; [reflexivity|]. split; [cbn [positions]; rewrite T; auto|]. unfold cut in *. cbn [map]. rewrite T, Ex. split.
    + intros ->. apply stuck_next; [exact L | exact Sk | apply Ht; reflexivity].
    + intros ->. destruct (Hf' eq_refl) as [No (left & Ml)]. split.
      * intros ts M. inversion M as [p m Lp E1 E2|p rest' m ts' Lp Sp M' E1 E2]; subst ts.
        -- destruct (longest_unique _ _ _ _ _ _ Lp L) as (_ & E0 & _); [apply app_nil_r | congruence].
        -- destruct (longest_unique _ _ _ _ _ _ Lp L E1) as (_ & -> & _). eapply No; exact M'.
      * exists left. apply munch_next; assumption.
Qed.

Lemma fresh_start before : fresh [] (start_lexing before).
Proof. unfold fresh. cbn. auto. Qed.

Lemma munches_stuck_munches x ts : munches_stuck d x ts -> munches d x ts [].
Proof.
  induction 1 as [p m L|p rest m ts L Sp M IH].
  - rewrite <- (app_nil_r p) at 1. apply munch_next; [exact L | constructor].
  - apply munch_next; assumption.
Qed.

Lemma munches_text x ts left : munches d x ts left -> x = List.concat (map snd ts) ++ left.
Proof. induction 1 as [w|p rest m ts left L M IH]; [reflexivity|]. cbn. rewrite <- app_assoc, <- IH. reflexivity. Qed.

Lemma munches_unique x ts left : munches d x ts left -> forall ts' left', munches d x ts' left' -> length ts = length ts' -> ts = ts' /\ left = left'.
Proof.
  induction 1 as [w|p rest m ts left L M IH]; intros ts' left' M' Hl.
  - destruct ts'; [|discriminate]. inversion M'; subst. auto.
  - inversion M' as [w E1 E2|p' rest' m' ts2 left2 L' M2 E1 E2]; subst; [discriminate|].
    destruct (longest_unique _ _ _ _ _ _ L' L E1) as (-> & -> & ->). cbn in Hl.
    destruct (IH _ _ M2 ltac:(lia)) as [-> ->]. auto.
Qed.

Lemma munches_det x ts ts' : munches d x ts [] -> munches d x ts' [] -> ts = ts'.
Proof.
  intros M. remember [] as left eqn:El. revert ts'. induction M as [w|p rest m ts left L M IH]; intros ts' M'; subst.
  - inversion M' as [|p' rest' m' ts2 left2 L' M2 E1 E2]; subst; [reflexivity|]. destruct L' as (Np & _). apply app_eq_nil in E1 as [E1 _]. congruence.
  - inversion M' as [w E1 E2|p' rest' m' ts2 left2 L' M2 E1 E2]; subst.
    + destruct L as (Np & _). exfalso. apply Np. match goal with X : _ ++ _ = [] |- _ => apply app_eq_nil in X as [X _]; exact X | X : [] = _ ++ _ |- _ => symmetry in X; apply app_eq_nil in X as [X _]; exact X end.
    + destruct (longest_unique _ _ _ _ _ _ L' L E1) as (-> & -> & ->). f_equal. apply IH; auto.
Qed.

Lemma cut_texts ts : List.concat (map snd (cut ts)) = texts ts.
Proof. unfold cut, texts. rewrite map_map. reflexivity. Qed.

Lemma positions_placed : forall ts B i t, positions B ts -> nth_error ts i = Some t ->
  placed (B ++ texts (firstn (S i) ts)) (lm_line t) (lm_column t) (lm_line_text t).
Proof.
  induction ts as [|a ts IH]; intros B i t P E; [destruct i; discriminate|]. destruct P as [Pa P]. destruct i as [|i].
  - injection E as <-. unfold texts. cbn. rewrite app_nil_r. pose proof (pos_placed (B ++ lm_text a)) as Q. rewrite <- Pa in Q. exact Q.
  - specialize (IH _ i t P E). unfold texts in *. cbn [firstn map List.concat] in *. rewrite <- app_assoc in IH. exact IH.
Qed.

(** The whole of it. *)
Lemma tokens_correct before x : (forall c, In c x -> -128 <= c < 128) ->
  exists out b, tokens_of d before x = Ok (out, b) /\
    (b = true <-> exists ts, munches_stuck d x ts) /\
    (b = true -> munches_stuck d x (cut out)) /\
    (exists left, munches d x (cut out) left /\ (b = true -> left = [])) /\
    forall i t, nth_error out i = Some t -> placed (texts (firstn (S i) out)) (lm_line t) (lm_column t) (lm_line_text t).
Proof.
  intros Ch. unfold tokens_of. destruct (lex_all (length x) x [] (start_lexing before) [] ((length x + 2) * (length x + 2))%nat ltac:(lia) ltac:(nia) Ch (fresh_start before))
    as (new & b & E & P & T & F). cbn [app] in E. exists new, b. split; [exact E|]. split; [|split; [exact T|split]].
  - split; [intros Hb; exists (cut new); auto|]. intros [ts M]. destruct b; [reflexivity|]. destruct (F eq_refl) as [No _]. destruct (No ts M).
  - destruct b.
    + exists []. split; [apply munches_stuck_munches, T; reflexivity | auto].
    + destruct (F eq_refl) as [_ (left & M)]. exists left. split; [exact M | discriminate].
  - intros i t Et. exact (positions_placed _ [] i t P Et).
Qed.

Lemma stuck_cut_unique x ts ts' : munches_stuck d x ts -> munches_stuck d x ts' -> ts = ts'.
Proof. intros A B. eapply munches_det; apply munches_stuck_munches; eassumption. Qed.
End Lexer.
