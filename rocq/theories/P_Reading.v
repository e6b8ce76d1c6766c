(** Reading with built parsers: what the certificates of P_Cover.v give, and two grammars that go wrong. *)
From Verif Require Import Prelude M_Automaton M_Grammar M_Parser M_Lanes S_Grammar P_Parser P_Parser7 P_Lanes P_Grammar P_Cover.
Local Open Scope Z_scope.

(* ------------------------------------------------------------------ *)
(** More turns for the loops do not change what is built. *)
Definition below {A} (a b : res A) : Prop := a = UB \/ a = b.
Lemma below_refl {A} (a : res A) : below a a.
Proof. right. reflexivity. Qed.
Lemma below_bind {A B} (a a' : res A) (f f' : A -> res B) : below a a' -> (forall x, below (f x) (f' x)) -> below (bind a f) (bind a' f').
Proof. intros [->| ->] H; [left; reflexivity|]. destruct a' as [x| |]; cbn [bind]; [apply H | right; reflexivity | left; reflexivity]. Qed.
Lemma below_foldM {S A} (f f' : S -> A -> res S) l : (forall s a, below (f s a) (f' s a)) -> forall s, below (foldM f l s) (foldM f' l s).
Proof. intros H. induction l as [|a l IH]; intros s; cbn [foldM]; [apply below_refl|]. apply below_bind; [apply H | exact IH]. Qed.
Lemma below_iterate {S R} (body : S -> res (S + R)) k s : below (finish (iterate k body s)) (finish (iterate (Datatypes.S k) body s)).
Proof. cbn [iterate]. destruct (iterate k body s) as [[s'|x]| |]; cbn [bind]; unfold finish; cbn [bind]; [left | right | right | left]; reflexivity. Qed.

Lemma first_sets_below fuel g : below (compute_first_sets fuel g) (compute_first_sets (S fuel) g).
Proof. unfold compute_first_sets. repeat (apply below_bind; [apply below_refl|]; intros ?). apply below_iterate. Qed.
Lemma context_set_below g cs states scs s2 fs fuel og cc z :
  below (compute_context_set g cs states scs s2 fs fuel og cc z) (compute_context_set g cs states scs s2 fs (S fuel) og cc z).
Proof.
  unfold compute_context_set. destruct cc as [cx cp]. apply below_bind; [apply below_refl|]. intros done. destruct done; [apply below_refl|].
  apply below_bind; [apply below_refl|]. intros il. apply below_iterate.
Qed.
Lemma lane_tracing_below fuel g cs states adequate : below (lane_tracing fuel g cs states adequate) (lane_tracing (S fuel) g cs states adequate).
Proof.
  unfold lane_tracing. apply below_bind; [apply below_refl|]. intros s2. apply below_bind; [apply below_refl|]. intros cc.
  apply below_bind; [apply below_refl|]. intros og. apply below_bind; [apply first_sets_below|]. intros fs.
  apply below_bind; [|intros [cx cp]; apply below_refl].
  apply below_foldM. intros cc' s_i. apply below_bind; [apply below_refl|]. intros a. destruct a; [apply below_refl|].
  apply below_bind; [apply below_refl|]. intros st. apply below_foldM. intros cc2 ci. repeat (apply below_bind; [apply below_refl|]; intros ?).
  destruct (negb _); [apply below_refl|]. apply below_bind; [apply below_refl|]. intros z. apply context_set_below.
Qed.
Lemma build_below fuel g : below (build_lalr_parser fuel g) (build_lalr_parser (S fuel) g).
Proof.
  unfold build_lalr_parser, build_parser. apply below_bind; [|intros; apply below_refl]. unfold build_lalr1_parser.
  repeat (apply below_bind; [apply below_refl|]; intros ?). destruct (forallb _ _); [apply below_refl|].
  apply below_bind; [apply lane_tracing_below|]. intros ?. apply below_refl.
Qed.
Lemma build_more fuel k g r : build_lalr_parser fuel g = r -> r <> UB -> build_lalr_parser (fuel + k) g = r.
Proof.
  intros E N. induction k as [|k IH]; [rewrite Nat.add_0_r; exact E|]. rewrite Nat.add_succ_r.
  destruct (build_below (fuel + k) g) as [X|X]; congruence.
Qed.
(** Two runs that end agree. *)
Lemma build_agree fuel fuel' g : build_lalr_parser fuel g <> UB -> build_lalr_parser fuel' g <> UB -> build_lalr_parser fuel g = build_lalr_parser fuel' g.
Proof.
  intros N N'. destruct (Nat.le_ge_cases fuel fuel') as [H|H].
  - symmetry. replace fuel' with (fuel + (fuel' - fuel))%nat by lia. apply build_more; auto.
  - replace fuel with (fuel' + (fuel - fuel'))%nat by lia. apply build_more; auto.
Qed.

(* ------------------------------------------------------------------ *)
Lemma built_sound_lalr {V} fuel g p (acts : actions_of V) n tokens : augmented g -> build_lalr_parser fuel g = Ok p -> tokens_of g tokens ->
  exists r, read_all n p acts tokens = Ok r /\ (forall v, r = Read v -> exists t, parses g t tokens /\ value acts t = Some v).
Proof. intros A E T. exact (built_sound _ g p acts n tokens A (lane_tracing_sane fuel g A) E T). Qed.

Lemma ends_fun {V} p (acts : actions_of V) w r r' : ends_with p acts w r -> ends_with p acts w r' -> r = r'.
Proof.
  intros (_ & n & H) (_ & n' & H'). specialize (H n'). specialize (H' n). rewrite Nat.add_comm in H'. rewrite H in H'. congruence.
Qed.
Lemma ends_once {V} p (acts : actions_of V) w r n : read_all n p acts w = Ok r -> r <> Reading -> ends_with p acts w r.
Proof. intros E N. split; [exact N|]. exists n. intros k. apply read_more; assumption. Qed.

Lemma tree_value g : (forall x t, derives g x t -> value tree_actions t = Some t) /\ (forall xs ts, derives_all g xs ts -> values tree_actions ts = Some ts).
Proof.
  apply derives_both.
  - reflexivity.
  - intros i q ts G N D IH. cbn [value]. change (fold_right _ _ ts) with (values tree_actions ts). rewrite IH. reflexivity.
  - reflexivity.
  - intros x xs t ts D IH D' IH'. change (values tree_actions (t :: ts)) with (match value tree_actions t, values tree_actions ts with Some v, Some vs => Some (v :: vs) | _, _ => None end).
    rewrite IH, IH'. reflexivity.
Qed.
Lemma parses_value g t w : parses g t w -> value tree_actions t = Some t.
Proof. intros ((x & _ & D) & _). eapply (proj1 (tree_value g)). exact D. Qed.

Lemma covered_complete {V} trace g p (acts : actions_of V) t w : augmented g -> sane_trace trace g -> build_parser trace g = Ok p -> covers p ->
  parses g t w -> ends_with p acts w (result_of acts t).
Proof.
  intros A Sn E C P. destruct (build_parser_lr trace g p A Sn E) as (<- & it & Hl). split; [unfold result_of; destruct (value acts t); discriminate|].
  eapply read_complete; eassumption.
Qed.
Lemma covered_unambiguous trace g p t t' w : augmented g -> sane_trace trace g -> build_parser trace g = Ok p -> covers p ->
  parses g t w -> parses g t' w -> t = t'.
Proof.
  intros A Sn E C P P'. pose proof (covered_complete trace g p tree_actions t w A Sn E C P) as R. pose proof (covered_complete trace g p tree_actions t' w A Sn E C P') as R'.
  pose proof (ends_fun _ _ _ _ _ R R') as X. unfold result_of in X. rewrite (parses_value _ _ _ P), (parses_value _ _ _ P') in X. congruence.
Qed.
Lemma no_contexts_built g p : needs_no_contexts g p <-> build_parser no_contexts g = Ok p.
Proof. split; [intros H; apply H | intros H trace; apply build_parser_lr0; exact H]. Qed.
Lemma lr0_complete {V} g p (acts : actions_of V) : augmented g -> needs_no_contexts g p ->
  (forall t w, parses g t w -> ends_with p acts w (result_of acts t)) /\ (forall t t' w, parses g t w -> parses g t' w -> t = t').
Proof.
  intros A N. pose proof (proj1 (no_contexts_built g p) N) as E. pose proof (lr0_covers g p A E) as C. split.
  - intros t w P. eapply covered_complete; eauto using no_contexts_sane.
  - intros t t' w P P'. eapply covered_unambiguous; eauto using no_contexts_sane.
Qed.

(** A parser with certificates decides. *)
Lemma certified_decides trace cert g p : augmented g -> sane_trace trace g -> build_parser trace g = Ok p -> certified cert p = true ->
  (forall t t' w, parses g t w -> parses g t' w -> t = t') /\
  forall V (acts : actions_of V) w, tokens_of g w ->
    (exists t, parses g t w /\ ends_with p acts w (result_of acts t)) \/ ((forall t, ~ parses g t w) /\ ends_with p acts w Refused).
Proof.
  intros A Sn E C. unfold certified in C. apply andb_true_iff in C as [C1 C2]. destruct (build_parser_lr _ g p A Sn E) as (Eg & it & Hl).
  assert (covers p) as Cv.
  { eapply checked_covers; [exact C1|]. intros s i d t La. apply (P_Parser.lookahead_item p it Hl) in La. apply (lr_range p it Hl) in La. lia. }
  split; [intros t t' w; apply (covered_unambiguous _ g p t t' w A Sn E Cv)|].
  intros V acts w T. subst g.
  assert (forall V' (acts' : actions_of V'), exists r, ends_with p acts' w r) as Ends.
  { intros V' acts'. destruct (reading_ends p it Hl acts' _ C2 w T) as (n & Hn). destruct (read_sound p it Hl acts' n w T) as (r & Er & _).
    exists r. eapply ends_once; [exact Er | congruence]. }
  destruct (Ends tree tree_actions) as (r & R). pose proof R as (Nr & n & Hr). specialize (Hr 0%nat). rewrite Nat.add_0_r in Hr.
  destruct (read_sound p it Hl tree_actions n w T) as (r' & Er' & S). rewrite Hr in Er'. injection Er' as <-.
  destruct r as [t| |]; [| |congruence].
  - destruct (S t eq_refl) as (t0 & P & _). left. exists t0. split; [exact P|]. eapply covered_complete; eassumption.
  - right. assert (forall t, ~ parses (p_grammar p) t w) as No.
    { intros t P. pose proof (covered_complete _ _ p tree_actions t w A Sn E Cv P) as R'. pose proof (ends_fun _ _ _ _ _ R R') as X.
      unfold result_of in X. rewrite (parses_value _ _ _ P) in X. discriminate. }
    split; [exact No|]. destruct (Ends V acts) as (r2 & R2). pose proof R2 as (N2 & n2 & H2). specialize (H2 0%nat). rewrite Nat.add_0_r in H2.
    destruct (read_sound p it Hl acts n2 w T) as (r3 & Er3 & S3). rewrite H2 in Er3. injection Er3 as <-.
    destruct r2 as [v| |]; [|exact R2|congruence]. destruct (S3 v eq_refl) as (t & P & _). exfalso. exact (No t P).
Qed.

(** The same for a language. *)
Definition language_certified (fuel : nat) (cert : certificate) (l : language) : bool :=
  match build_grammar l with
  | Ok (Some g) => match build_lalr_parser fuel g with Ok p => certified cert p | _ => false end
  | _ => false
  end.
Lemma certified_language fuel cert l : language_certified fuel cert l = true ->
  exists g p goal, build_grammar l = Ok (Some g) /\ build_lalr_parser fuel g = Ok p /\ goal_name l goal /\
    forall V (acts : actions_of V) w, tokens_in l w ->
      (exists t, denotes l goal t /\ yield t = w /\ (forall t', denotes l goal t' -> yield t' = w -> t' = t) /\ ends_with p acts w (result_of acts t)) \/
      ((forall t, denotes l goal t -> yield t <> w) /\ ends_with p acts w Refused).
Proof.
  unfold language_certified. intros C. destruct (build_grammar l) as [[g|]| |] eqn:Eg; try discriminate. destruct (build_lalr_parser fuel g) as [p| |] eqn:Ep; try discriminate.
  destruct (build_grammar_some l g Eg) as (A & Ent & _ & goal & Hg & _ & Hp). exists g, p, goal. split; [reflexivity|]. split; [exact Ep|]. split; [exact Hg|].
  destruct (certified_decides _ cert g p A (lane_tracing_sane fuel g A) Ep C) as [U D]. intros V acts w T.
  destruct (D V acts w) as [(t & P & R)|(N & R)].
  { unfold tokens_of. eapply Forall_impl; [|exact T]. intros [k x] H. cbn in *. lia. }
  - left. exists t. pose proof P as P0. apply Hp in P0 as [P1 P2]. repeat split; try assumption; try apply R.
    intros t' Dt Et. apply (U t' t w); [apply Hp; split; assumption | exact P].
  - right. split; [|exact R]. intros t Dt Et. apply (N t). apply Hp. split; assumption.
Qed.

Lemma tokens_in_of l g w : build_grammar l = Ok (Some g) -> tokens_in l w -> tokens_of g w.
Proof.
  intros E T. destruct (build_grammar_some l g E) as (_ & Ent & _). unfold tokens_of. eapply Forall_impl; [|exact T]. intros [k x] H. cbn in *. lia.
Qed.
Lemma language_sound l g fuel p : build_grammar l = Ok (Some g) -> build_lalr_parser fuel g = Ok p ->
  exists goal, goal_name l goal /\ forall V (acts : actions_of V) w n, tokens_in l w ->
    exists r, read_all n p acts w = Ok r /\ forall v, r = Read v -> exists t, denotes l goal t /\ yield t = w /\ value acts t = Some v.
Proof.
  intros Eg Ep. destruct (build_grammar_some l g Eg) as (A & _ & _ & goal & Hg & _ & Hp). exists goal. split; [exact Hg|].
  intros V acts w n T. destruct (built_sound_lalr fuel g p acts n w A Ep (tokens_in_of _ _ _ Eg T)) as (r & Er & H). exists r. split; [exact Er|].
  intros v Hv. destruct (H v Hv) as (t & P & Vt). exists t. apply Hp in P. tauto.
Qed.
Lemma language_lr0 l g p : build_grammar l = Ok (Some g) -> needs_no_contexts g p ->
  exists goal, goal_name l goal /\
    (forall V (acts : actions_of V) t, denotes l goal t -> ends_with p acts (yield t) (result_of acts t)) /\
    (forall t t', denotes l goal t -> denotes l goal t' -> yield t = yield t' -> t = t').
Proof.
  intros Eg N. destruct (build_grammar_some l g Eg) as (A & _ & _ & goal & Hg & _ & Hp). exists goal. split; [exact Hg|]. split.
  - intros V acts t D. apply (proj1 (lr0_complete g p acts A N)). apply Hp. split; [exact D | reflexivity].
  - intros t t' D D' E. apply (proj2 (lr0_complete g p tree_actions A N) t t' (yield t)); apply Hp; split; auto.
Qed.
Lemma language_covered l g fuel p : build_grammar l = Ok (Some g) -> build_lalr_parser fuel g = Ok p -> covers p ->
  exists goal, goal_name l goal /\
    (forall V (acts : actions_of V) t, denotes l goal t -> ends_with p acts (yield t) (result_of acts t)) /\
    (forall t t', denotes l goal t -> denotes l goal t' -> yield t = yield t' -> t = t').
Proof.
  intros Eg Ep C. destruct (build_grammar_some l g Eg) as (A & _ & _ & goal & Hg & _ & Hp). exists goal. split; [exact Hg|].
  pose proof (lane_tracing_sane fuel g A) as Sn. split.
  - intros V acts t D. eapply covered_complete; [exact A | exact Sn | exact Ep | exact C|]. apply Hp. split; [exact D | reflexivity].
  - intros t t' D D' E. eapply covered_unambiguous with (w := yield t); [exact A | exact Sn | exact Ep | exact C | |]; apply Hp; split; auto.
Qed.
Lemma language_trees l g : build_grammar l = Ok (Some g) ->
  exists goal, goal_name l goal /\ (forall a, goal_name l a -> a = goal) /\ forall t w, parses g t w <-> denotes l goal t /\ yield t = w.
Proof. intros E. destruct (build_grammar_some l g E) as (_ & _ & _ & goal & H1 & H2 & H3). exists goal. auto. Qed.
Lemma grammar_outcomes l :
  (build_grammar l = Ok None <-> ~ all_known l) /\
  ((exists g, build_grammar l = Ok (Some g)) <-> all_known l /\ exists goal, goal_name l goal /\ forall a, goal_name l a -> a = goal) /\
  build_grammar l <> UB.
Proof.
  split; [apply build_grammar_none|]. split.
  - split.
    + intros (g & E). assert (all_known l \/ ~ all_known l) as [K|K].
      { destruct (build_grammar_ok l) as (m & ns & N & K & [[(p & s & Ip & Is & Ns) E']|(ps & goals & FP & Nd & Hg & E')]); [congruence|].
        left. intros p s Ip Is. destruct (P_Parser6.Forall2_In_l _ _ _ p FP Ip) as (q & _ & _ & Hr). destruct (P_Parser6.Forall2_In_l _ _ _ s Hr Is) as (y & _ & k & Lk & _). apply K. eauto. }
      * split; [exact K|]. apply (proj2 (build_grammar_abort l K)). eauto.
      * apply build_grammar_none in K. congruence.
    + intros (K & G). apply (proj1 (build_grammar_abort l K)). exact G.
  - destruct (build_grammar_ok l) as (m & ns & N & K & [[_ E]|(ps & goals & FP & Nd & Hg & E)]); rewrite E; [discriminate|].
    destruct goals as [|x [|y r]]; discriminate.
Qed.
