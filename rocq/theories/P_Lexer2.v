(** The lexer of a language, and that what a reader read before does not matter. *)
From Verif Require Import Prelude M_Automaton S_Automaton P_Automaton P_Automaton2 P_Automaton3 P_Automaton7 M_Lexer S_Lexer P_Lexer.
Local Open Scope Z_scope.

(* ------------------------------------------------------------------ *)
(** Stale accepts *)

Definition agree (r1 r2 : lexing) : Prop :=
  line r1 = line r2 /\ column r1 = column r2 /\ lexer_state r1 = lexer_state r2 /\ lexer_text r1 = lexer_text r2 /\
  line_text r1 = line_text r2 /\ lexer_token r1 = lexer_token r2 /\ (lexer_token r1 <> -1 -> r1 = r2).

Lemma agree_push c t r1 r2 : agree r1 r2 -> agree (push_char c t r1) (push_char c t r2).
Proof. intros (A & B & C & D & E & F & G). unfold agree, push_char. cbn. rewrite A, B, D, E, F. do 6 (split; [reflexivity|]). intros N. rewrite G by congruence. reflexivity. Qed.
Lemma agree_update c r1 r2 : agree r1 r2 -> agree (update_position c r1) (update_position c r2).
Proof.
  intros (A & B & C & D & E & F & G). unfold agree, update_position. destruct (c =? 10); cbn; rewrite A, C, D, F, ?B, ?E; do 6 (split; [reflexivity|]); intros N; rewrite G by congruence; reflexivity.
Qed.
Lemma agree_note k r1 r2 : agree r1 r2 -> agree (note_accept k r1) (note_accept k r2).
Proof.
  intros H. unfold note_accept. destruct (k =? -1); [exact H|]. destruct H as (A & B & C & D & E & F & G). unfold agree. cbn. rewrite A, B, C, D, E.
  do 6 (split; [reflexivity|]). reflexivity.
Qed.

Lemma end_agree r1 r2 : agree r1 r2 -> at_lexer_end r1 = at_lexer_end r2.
Proof.
  intros (A & B & C & D & E & F & G). destruct (Z.eq_dec (lexer_token r1) (-1)) as [K|K]; [|rewrite (G K); reflexivity].
  unfold at_lexer_end. rewrite <- F, K, D, E. reflexivity.
Qed.

Lemma loop_agree lx : forall f r1 r2 s out a b, agree r1 r2 -> lex_loop f lx r1 s out = Ok a -> lex_loop f lx r2 s out = Ok b -> a = b.
Proof.
  induction f as [|f IH]; intros r1 r2 s out a b H E1 E2; [discriminate|]. cbn [lex_loop] in E1, E2. destruct s as [|c s].
  - rewrite (end_agree r1 r2 H) in E1. destruct (Z.eq_dec (lexer_token r1) (-1)) as [K|K].
    + destruct H as (_ & _ & _ & D & _ & F & _). assert (forall e, at_lexer_end r2 = Ok e -> e = None) as N.
      { intros e. unfold at_lexer_end. rewrite <- F, K. cbn [Z.eqb Pos.eqb]. destruct (set_count 10 (lexer_text r2)); [congruence|].
        cbn [check]. destruct (zlen (lexer_text r2) <=? zlen (line_text r2)); cbn [bind check]; congruence. }
      assert (a = (out, false)) as ->.
      { destruct (last_lexer_accept r1 <? zlen (lexer_text r1)); [congruence|]. apply bind_ok in E1 as (e & Ee & E1). apply N in Ee. subst e. congruence. }
      destruct (last_lexer_accept r2 <? zlen (lexer_text r2)); [congruence|]. apply bind_ok in E2 as (e & Ee & E2). apply N in Ee. subst e. congruence.
    + destruct H as (_ & _ & _ & _ & _ & _ & G). rewrite (G K) in E1. congruence.
  - assert (lexer_state r1 = lexer_state r2) as Es by (destruct H as (_ & _ & X & _); exact X). rewrite Es in E1.
    apply bind_ok in E1 as (k & Ek & E1). rewrite Ek in E2. cbn [bind] in E2. destruct (negb k); [congruence|].
    apply bind_ok in E1 as (x & Ex & E1). rewrite Ex in E2. cbn [bind] in E2.
    apply bind_ok in E1 as (t & Et & E1). rewrite Et in E2. cbn [bind] in E2.
    pose proof (agree_push c t _ _ H) as Hp. destruct (t =? -1).
    + rewrite (end_agree _ _ Hp) in E1. apply bind_ok in E1 as (e & Ee & E1). rewrite Ee in E2. cbn [bind] in E2.
      destruct e as [[[? ?] ?]|]; congruence.
    + apply bind_ok in E1 as (k2 & Ek2 & E1). rewrite Ek2 in E2. cbn [bind] in E2.
      eapply IH; [|exact E1 | exact E2]. apply agree_note, agree_update, Hp.
Qed.

Lemma before_irrelevant d : well_formed d -> is_deterministic d = true -> get_nsymbols d = NCHARS -> forall b1 b2 x,
  (forall c, In c x -> -128 <= c < 128) -> tokens_of d b1 x = tokens_of d b2 x.
Proof.
  intros W D K b1 b2 x Ch. destruct (tokens_correct d W D K b1 x Ch) as (o1 & s1 & E1 & _). destruct (tokens_correct d W D K b2 x Ch) as (o2 & s2 & E2 & _).
  rewrite E1, E2. f_equal. unfold tokens_of in E1, E2. eapply loop_agree; [|exact E1 | exact E2].
  unfold agree, start_lexing. cbn. do 6 (split; [reflexivity|]). congruence.
Qed.

(* ------------------------------------------------------------------ *)
(** Success *)

Lemma lexing_decides d : well_formed d -> is_deterministic d = true -> get_nsymbols d = NCHARS -> forall before x,
  (forall c, In c x -> -128 <= c < 128) ->
  (exists out, tokens_of d before x = Ok (out, true) /\ munches_stuck d x (cut out)) \/
  (exists out, tokens_of d before x = Ok (out, false) /\ forall ts, ~ munches_stuck d x ts).
Proof.
  intros W D K before x Ch. destruct (tokens_correct d W D K before x Ch) as (out & b & E & I & T & _). destruct b.
  - left. exists out. auto.
  - right. exists out. split; [exact E|]. intros ts M. assert (false = true) by (apply I; eauto). discriminate.
Qed.

Lemma lexing_longest d : well_formed d -> is_deterministic d = true -> get_nsymbols d = NCHARS -> forall before x out b,
  (forall c, In c x -> -128 <= c < 128) -> tokens_of d before x = Ok (out, b) ->
  exists left, munches d x (cut out) left /\ x = texts out ++ left /\ (b = true -> left = []).
Proof.
  intros W D K before x out b Ch E. destruct (tokens_correct d W D K before x Ch) as (o & s & E' & _ & _ & (left & M & L) & _).
  rewrite E in E'. injection E' as <- <-. exists left. split; [exact M|]. split; [rewrite <- cut_texts; eapply munches_text; exact M | exact L].
Qed.

Lemma lexing_places d : well_formed d -> is_deterministic d = true -> get_nsymbols d = NCHARS -> forall before x out b i t,
  (forall c, In c x -> -128 <= c < 128) -> tokens_of d before x = Ok (out, b) -> nth_error out i = Some t ->
  placed (texts (firstn (S i) out)) (lm_line t) (lm_column t) (lm_line_text t).
Proof.
  intros W D K before x out b i t Ch E. destruct (tokens_correct d W D K before x Ch) as (o & s & E' & _ & _ & _ & P).
  rewrite E in E'. injection E' as <- <-. apply P.
Qed.

Lemma lexing_empty d : well_formed d -> is_deterministic d = true -> get_nsymbols d = NCHARS -> forall before, tokens_of d before [] = Ok ([], false).
Proof.
  intros W D K before. destruct (lexing_decides d W D K before []) as [(out & _ & M)|(out & E & _)]; [intros c [] | |].
  - exfalso. remember [] as x eqn:Ex in M. destruct M as [p m L|p rest m ts L _ _]; destruct L as (N & _); [congruence|].
    apply app_eq_nil in Ex as [Ex _]. congruence.
  - rewrite E. destruct (lexing_longest d W D K before [] out false) as (left & _ & T & _); [intros c [] | exact E|].
    destruct (tokens_correct d W D K before []) as (o & s & E' & _ & _ & (l & M & _) & _); [intros c []|]. rewrite E in E'. injection E' as <- <-.
    destruct out as [|t out]; [reflexivity|]. exfalso. unfold cut in M. cbn in M. inversion M as [|p rest m ts l' L M' E1 E2]. destruct L as (N & _).
    apply app_eq_nil in E1 as [E1 _]. congruence.
Qed.

(* ------------------------------------------------------------------ *)
(** Languages *)

Lemma matches_readable : forall r, regex_ok r -> forall w c, matches r w -> In c w -> readable c.
Proof.
  induction r as [c0| |items|items|a IHa b IHb|a IHa b IHb|a IHa|a IHa|a IHa]; cbn [regex_ok matches]; intros Ok w c M I.
  - subst w. destruct I as [<-|[]]. exact Ok.
  - destruct M as (d & R & ->). destruct I as [<-|[]]. exact R.
  - destruct M as (d & i & Hi & Hd & ->). destruct I as [<-|[]]. eapply Ok; eassumption.
  - destruct M as (d & R & _ & ->). destruct I as [<-|[]]. exact R.
  - destruct Ok. destruct M; [eapply IHa | eapply IHb]; eassumption.
  - destruct Ok. destruct M as (u & v & -> & Mu & Mv). apply in_app_or in I as [I|I]; [eapply IHa | eapply IHb]; eassumption.
  - destruct M as (ws & -> & F). apply in_concat in I as (u & Hu & I). rewrite Forall_forall in F. eapply IHa; eauto.
  - destruct M as (ws & _ & -> & F). apply in_concat in I as (u & Hu & I). rewrite Forall_forall in F. eapply IHa; eauto.
  - destruct M as [->|M]; [destruct I | eapply IHa; eassumption].
Qed.

Lemma readable_symbols w : (forall c, In c w -> readable c) -> exists sy, mapM get_symbol w = Ok sy.
Proof.
  induction w as [|c w IH]; intros R; [exists []; reflexivity|]. destruct (get_symbol_readable c (R c (or_introl eq_refl))) as [s E].
  destruct IH as [sy Es]; [intros; apply R; right; assumption|]. exists (s :: sy). cbn. rewrite E. cbn [bind]. rewrite Es. reflexivity.
Qed.

Lemma first_match_fun rs w m m' : first_match rs w m -> first_match rs w m' -> m = m'.
Proof.
  intros [[-> No]|(r & G & M & Min)] [[-> No']|(r' & G' & M' & Min')].
  - reflexivity.
  - destruct (No r' (zget_In _ _ _ G') M').
  - destruct (No' r (zget_In _ _ _ G) M).
  - pose proof (zget_bounds _ _ _ G). pose proof (zget_bounds _ _ _ G'). destruct (Z.lt_trichotomy m m') as [L|[E|L]]; [|exact E|].
    + destruct (Min' m r ltac:(lia) G M).
    + destruct (Min m' r' ltac:(lia) G' M').
Qed.

Lemma lexer_reads rs d : (forall r, In r rs -> regex_ok r) ->
  (forall w sy, mapM get_symbol w = Ok sy -> exists m, run d 0 sy = Ok m /\ first_match rs w m) ->
  forall w m, reads d w m -> first_match rs w m.
Proof. intros R L w m (sy & E & Rn). destruct (L w sy E) as (m' & E' & F). rewrite Rn in E'. injection E' as ->. exact F. Qed.

Lemma longest_in_language rs d : (forall r, In r rs -> regex_ok r) ->
  (forall w sy, mapM get_symbol w = Ok sy -> exists m, run d 0 sy = Ok m /\ first_match rs w m) ->
  forall p rest m, longest d p rest m -> longest_match rs p rest m.
Proof.
  intros R L p rest m (N & Nm & Rd & Lg). split; [exact N|]. split; [exact Nm|]. split; [eapply lexer_reads; eassumption|].
  intros q r e Er Nq He M. destruct (readable_symbols (p ++ q)) as [sy Es]; [intros c; apply (matches_readable e (R e He)); exact M|].
  destruct (L _ _ Es) as (m' & Em & F). assert (m' = -1) as -> by (eapply Lg; [exact Er | exact Nq | exists sy; auto]).
  destruct F as [[_ No]|(e' & G & _)]; [exact (No e He M)|]. pose proof (zget_bounds _ _ _ G). lia.
Qed.

Lemma cut_in_language rs d : (forall r, In r rs -> regex_ok r) ->
  (forall w sy, mapM get_symbol w = Ok sy -> exists m, run d 0 sy = Ok m /\ first_match rs w m) ->
  forall x ts left, munches d x ts left -> language_cut rs x ts left.
Proof. intros R L x ts left M. induction M as [w|p rest m ts left Lg M IH]; constructor; [eapply longest_in_language; eassumption | exact IH]. Qed.

Lemma language_lexed rs : rs <> [] -> (forall r, In r rs -> regex_ok r) ->
  exists d, build_lexer rs = Ok d /\ forall before x, (forall c, In c x -> -128 <= c < 128) ->
    exists out b left, tokens_of d before x = Ok (out, b) /\ language_cut rs x (cut out) left /\ x = texts out ++ left /\ (b = true -> left = []).
Proof.
  intros N R. destruct (build_lexer_correct rs N R) as (d & E & W & D & K & L). exists d. split; [exact E|].
  intros before x Ch. destruct (tokens_correct d W D K before x Ch) as (out & b & Eo & _ & _ & (left & M & Hl) & _).
  exists out, b, left. split; [exact Eo|]. split; [eapply cut_in_language; eassumption|]. split; [|exact Hl].
  rewrite <- cut_texts. eapply munches_text. exact M.
Qed.

(** The cut is determined by the expressions. *)
Lemma longest_match_unique rs p rest m p' rest' m' : longest_match rs p rest m -> longest_match rs p' rest' m' -> p ++ rest = p' ++ rest' ->
  p = p' /\ rest = rest' /\ m = m'.
Proof.
  intros (N & M & F & L) (N' & M' & F' & L') E.
  assert (forall w k, k <> -1 -> first_match rs w k -> exists e, In e rs /\ matches e w) as Some_match.
  { intros w k Nk [[-> _]|(e & G & Me & _)]; [congruence|]. exists e. split; [eapply zget_In; exact G | exact Me]. }
  destruct (prefixes _ _ _ _ E) as [(z & -> & ->)|(z & -> & -> & Nz)].
  - destruct z as [|c z]; [rewrite app_nil_r in *; cbn in *; split; [reflexivity|]; split; [reflexivity | eapply first_match_fun; eassumption]|].
    exfalso. destruct (Some_match _ _ M' F') as (e & He & Me). eapply (L (c :: z) rest'); [reflexivity | discriminate | exact He | exact Me].
  - exfalso. destruct (Some_match _ _ M F) as (e & He & Me). eapply (L' z rest); [reflexivity | exact Nz | exact He | exact Me].
Qed.

Lemma language_cut_unique rs : forall x ts, language_cut rs x ts [] -> forall ts', language_cut rs x ts' [] -> ts = ts'.
Proof.
  intros x ts M. remember [] as left eqn:El. induction M as [w|p rest m ts left L M IH]; intros ts' M'; subst.
  - inversion M' as [|p' rest' m' ts2 left2 L' M2 E1 E2]; subst; [reflexivity|]. destruct L' as (Np & _). apply app_eq_nil in E1 as [E1 _]. congruence.
  - inversion M' as [w E1 E2|p' rest' m' ts2 left2 L' M2 E1 E2]; subst.
    + destruct L as (Np & _). exfalso. apply Np. match goal with X : _ ++ _ = [] |- _ => apply app_eq_nil in X as [X _]; exact X | X : [] = _ ++ _ |- _ => symmetry in X; apply app_eq_nil in X as [X _]; exact X end.
    + destruct (longest_match_unique _ _ _ _ _ _ _ L' L E1) as (-> & -> & ->). f_equal. apply IH; auto.
Qed.
