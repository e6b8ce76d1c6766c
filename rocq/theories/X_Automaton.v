(** Example automata and languages, and the witnesses of the refutations. *)
From Verif Require Import Prelude M_Automaton S_Automaton P_Automaton P_Automaton2 P_Automaton3 P_Automaton5 P_Automaton7 M_Lexer S_Lexer P_Lexer P_Lexer2.
Local Open Scope Z_scope.

Ltac auto_wf := split; [vm_compute; reflexivity|]; split; [vm_compute; discriminate|]; split; [discriminate|]; split; [reflexivity|];
  split; [intros row H; cbn in H; repeat (destruct H as [<-|H]; [split; [reflexivity|]; intros t T; cbn in T; repeat (destruct T as [<-|T]; [vm_compute; split; [discriminate | reflexivity]|]); destruct T|]); destruct H
         | intros t T; cbn in T; repeat (destruct T as [<-|T]; [vm_compute; discriminate|]); destruct T].

(** x y* over the symbols x = 0 and y = 1: the accepting state has a move *)
Definition xy_star : automaton := FA [[1; -1]; [-1; 1]] 2 [-1; 0] true.
Lemma xy_star_wf : well_formed xy_star. Proof. auto_wf. Qed.

(** x and y, one state each *)
Definition just_x : automaton := FA [[1; -1]; [-1; -1]] 2 [-1; 0] true.
Lemma just_x_wf : well_formed just_x. Proof. auto_wf. Qed.
Definition just_y : automaton := FA [[-1; 1]; [-1; -1]] 2 [-1; 0] true.
Lemma just_y_wf : well_formed just_y. Proof. auto_wf. Qed.

Lemma states_of fa s token : well_formed fa -> accepts fa s = Ok token -> 0 <= s < zlen (table fa).
Proof. intros W E. unfold accepts, vget in E. destruct W as (_ & _ & _ & L & _). apply bind_ok in E as (u & C & E). apply zget_bounds in E. lia. Qed.

Lemma just_x_final : final_accepts just_x.
Proof.
  intros s token x t A N St. pose proof (states_of _ _ _ just_x_wf A) as R. change (zlen (table just_x)) with 2 in R.
  assert (s = 0 \/ s = 1) as [->| ->] by lia; [vm_compute in A; injection A as <-; congruence|].
  apply step_cell in St. rewrite <- St. destruct (Z.eq_dec (cell just_x 1 x) (-1)) as [|Nc]; [assumption|].
  destruct (cell_out just_x 1 x just_x_wf Nc) as [_ Rx]. change (ncols just_x) with 2 in Rx. assert (x = 0 \/ x = 1) as [->| ->] by lia; reflexivity.
Qed.
Lemma final_quiet' fa : final_accepts fa -> quiet_accepts fa.
Proof. intros F s token e t A N _ St. eapply F; eassumption. Qed.

Lemma xy_star_quiet : quiet_accepts xy_star.
Proof.
  intros s token e t A N He St. apply step_cell in St. rewrite <- St. destruct (Z.eq_dec (cell xy_star s e) (-1)) as [|Nc]; [assumption|].
  destruct (cell_out xy_star s e xy_star_wf Nc) as [_ Rx]. change (ncols xy_star) with 2 in Rx. change (get_nsymbols xy_star) with 2 in He. lia.
Qed.

(** maybe wires the accepting states of its argument to its start, so it also accepts what can follow them *)
Lemma maybe_wrong : exists fa, maybe xy_star 0 = Ok fa /\ recognises fa [1] 0 /\ [1] <> [] /\ forall t, ~ recognises xy_star [1] t.
Proof.
  eexists. split; [vm_compute; reflexivity|]. split; [|split; [discriminate|]].
  - exists 3. split; [|split; [reflexivity | lia]].
    apply (path_silent _ 0 2 2); [left; reflexivity | reflexivity | lia|].
    apply (path_symbol _ 2 1 2); [vm_compute; split; [discriminate | reflexivity] | reflexivity | lia|].
    apply (path_silent _ 2 2 3); [left; reflexivity | reflexivity | lia|]. constructor.
  - intros t R. apply (det_recognises xy_star [1] t xy_star_wf eq_refl) in R as [R N].
    + vm_compute in R. congruence.
    + intros x [<-|[]]. vm_compute. split; [discriminate | reflexivity].
Qed.

(** x* with two states that take turns: simplify keeps both *)
Definition turns : automaton := FA [[1]; [0]] 1 [0; 0] true.
Definition turns1 : automaton := FA [[0]] 1 [0] true.
Lemma turns_wf : well_formed turns. Proof. auto_wf. Qed.
Lemma turns1_wf : well_formed turns1. Proof. auto_wf. Qed.
Lemma turns_run : forall w, over turns w -> run turns 0 w = Ok 0 /\ run turns 1 w = Ok 0 /\ run turns1 0 w = Ok 0.
Proof.
  induction w as [|x w IH]; intros O; [repeat split; reflexivity|]. destruct IH as (A & B & C); [intros y Hy; apply O; right; exact Hy|].
  assert (x = 0) as -> by (specialize (O x (or_introl eq_refl)); change (get_nsymbols turns) with 1 in O; lia). split; [exact B|]. split; [exact A | exact C].
Qed.
Lemma simplify_not_least : simplify turns = Ok turns /\ well_formed turns /\ is_deterministic turns = true /\
  well_formed turns1 /\ is_deterministic turns1 = true /\ zlen (table turns1) < zlen (table turns) /\
  forall w tk, recognises turns1 w tk <-> recognises turns w tk.
Proof.
  split; [vm_compute; reflexivity|]. split; [exact turns_wf|]. split; [reflexivity|]. split; [exact turns1_wf|]. split; [reflexivity|]. split; [reflexivity|].
  intros w tk. split; intros R.
  - pose proof (recognises_over _ _ _ R) as O. apply (det_recognises _ _ _ turns1_wf eq_refl O) in R as [R N]. destruct (turns_run w O) as (A & _ & C).
    apply (det_recognises _ _ _ turns_wf eq_refl O). split; congruence.
  - pose proof (recognises_over _ _ _ R) as O. apply (det_recognises _ _ _ turns_wf eq_refl O) in R as [R N]. destruct (turns_run w O) as (A & _ & C).
    apply (det_recognises _ _ _ turns1_wf eq_refl O). split; congruence.
Qed.

(** identifiers, numbers and spaces *)
Definition small_language : list regex :=
  [RConcat (RSet [ItemRange 97 122; ItemChar 95]) (RStar (RSet [ItemRange 97 122; ItemChar 95; ItemRange 48 57]));
   RPlus (RSet [ItemRange 48 57]); RPlus (RSet [ItemChar 32; ItemChar 10])].
Lemma small_ok : small_language <> [] /\ forall r, In r small_language -> regex_ok r.
Proof.
  split; [discriminate|]. assert (forall c i, In i [ItemRange 97 122; ItemChar 95; ItemRange 48 57; ItemChar 32; ItemChar 10] -> in_item c i -> readable c) as A.
  { intros c i [<-|[<-|[<-|[<-|[<-|[]]]]]]; cbn; unfold readable; lia. }
  intros r [<-|[<-|[<-|[]]]]; cbn [regex_ok]; [split|..]; intros c i Hi; apply A; cbn in *; tauto.
Qed.

(** a, ab*c and b: the text ab is a then b, but after reading it the reader still hopes for ab*c *)
Definition hopeful : list regex :=
  [RChar 97; RConcat (RChar 97) (RConcat (RStar (RChar 98)) (RChar 99)); RChar 98].
Lemma hopeful_ok : hopeful <> [] /\ forall r, In r hopeful -> regex_ok r.
Proof. split; [discriminate|]. intros r [<-|[<-|[<-|[]]]]; cbn [regex_ok]; unfold readable; lia. Qed.
Definition hopeful_lexer : res automaton := Eval vm_compute in build_lexer hopeful.
Definition untouched : lexing := mk_lexing 1 1 0 [] [] (-1) 0 0 0 [].
Lemma hopeful_throws : exists d, build_lexer hopeful = Ok d /\ language_cut hopeful [97; 98] [(0, [97]); (2, [98])] [] /\
  forall before, tokens_of d before [97; 98] = Ok ([], false).
Proof.
  destruct hopeful_ok as [N R]. destruct (build_lexer_correct hopeful N R) as (d & E & W & D & K & L). exists d. split; [exact E|].
  assert (Ok d = hopeful_lexer) as Ed by (rewrite <- E; vm_compute; reflexivity). unfold hopeful_lexer in Ed. injection Ed as ->.
  assert (forall q r : list Z, [98] = q ++ r -> q <> [] -> q = [98]) as One.
  { intros [|y q] r Eq Nq; [congruence|]. cbn in Eq. injection Eq as <- Eq. symmetry in Eq. apply app_eq_nil in Eq as [-> _]. reflexivity. }
  split.
  - eapply cut_in_language; [exact R | exact L|].
    apply (munch_next _ [97] [98] 0); [|apply (munch_next _ [98] [] 2); [|constructor]].
    + split; [discriminate|]. split; [lia|]. split; [eexists; split; vm_compute; reflexivity|]. intros q r m Eq Nq. rewrite (One q r Eq Nq).
      intros (sy & Es & Rn). vm_compute in Es. injection Es as <-. vm_compute in Rn. congruence.
    + split; [discriminate|]. split; [lia|]. split; [eexists; split; vm_compute; reflexivity|]. intros q r m Eq Nq. symmetry in Eq. apply app_eq_nil in Eq as [-> _]. congruence.
  - intros before. rewrite (before_irrelevant _ W D K before untouched); [vm_compute; reflexivity|]. intros c [<-|[<-|[]]]; lia.
Qed.

(** characters outside the alphabet *)
Lemma unreadable_refused c token : -128 <= c < 128 -> ~ readable c -> build_dfa (RChar c) token = Abort.
Proof. intros R N. unfold build_dfa. cbn [build_nfa]. unfold make_char_single_nfa. rewrite (get_symbol_refuses c R N). reflexivity. Qed.

Lemma symbols_inverse : (forall c, readable c <-> exists s, get_symbol c = Ok s) /\
  (forall c s, get_symbol c = Ok s -> 0 <= s < NCHARS /\ get_char s = Ok c) /\
  (forall s, 0 <= s < NCHARS -> exists c, get_char s = Ok c /\ get_symbol c = Ok s) /\
  (forall c, -128 <= c < 128 -> ~ readable c -> get_symbol c = Abort /\ is_symbol c = Ok false).
Proof.
  split; [|split; [|split]].
  - intros c. split; [apply get_symbol_readable | intros [s E]; apply get_symbol_inv in E; tauto].
  - intros c s E. apply get_symbol_inv in E. tauto.
  - intros s R. destruct (get_char_ok s R) as (c & E & _ & F). eauto.
  - intros c R N. pose proof (get_symbol_refuses c R N) as G. split; [exact G|].
    destruct (char_cases turns c R) as [[I _]|(x & _ & X & _)]; [exact I | congruence].
Qed.

(** the parts of [build_dfa_correct] and [build_lexer_correct] a user sees *)
Lemma dfa_decides r token : regex_ok r -> 0 <= token ->
  exists d, build_dfa r token = Ok d /\ well_formed d /\ is_deterministic d = true /\ get_nsymbols d = NCHARS /\
  forall w sy, mapM get_symbol w = Ok sy -> (run d 0 sy = Ok token /\ matches r w) \/ (run d 0 sy = Ok (-1) /\ ~ matches r w).
Proof. intros R T. destruct (build_dfa_correct r token R T) as (d & E & W & D & K & _ & X). exists d. auto. Qed.
