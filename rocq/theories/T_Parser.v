(** C62-C64: languages, their grammars, and the parsers that read them. *)
From Verif Require Import Prelude M_Automaton M_Grammar M_Parser M_Lanes M_Languages S_Grammar P_Grammar P_Parser7 P_Reading P_Languages X_Parser.
Require Import String.
Local Open Scope Z_scope.

(* ------------------------------------------------------------------ *)
(** C62: the grammar built for a language has its trees. *)
Theorem grammar_has_the_trees : forall l g, build_grammar l = Ok (Some g) ->
  exists goal, goal_name l goal /\ (forall a, goal_name l a -> a = goal) /\ forall t w, parses g t w <-> denotes l goal t /\ yield t = w.
Proof. exact language_trees. Qed.
(** The language is refused when a production uses a name that is neither a token nor defined; without a single goal
    the program ends. *)
Theorem grammar_when : forall l,
  (build_grammar l = Ok None <-> ~ all_known l) /\
  ((exists g, build_grammar l = Ok (Some g)) <-> all_known l /\ exists goal, goal_name l goal /\ forall a, goal_name l a -> a = goal) /\
  build_grammar l <> UB.
Proof. exact grammar_outcomes. Qed.

Example grammar_nested : exists g, build_grammar nested_language = Ok (Some g) /\
  productions g = [mk_production 4 [5]; mk_production 5 [0; 5; 1]; mk_production 5 [2]; mk_production 6 [4]] /\ nterminals g = 4.
Proof. exists (grammar_of nested_language). vm_compute. repeat split; reflexivity. Qed.
Example grammar_undefined : build_grammar undefined_language = Ok None.
Proof. reflexivity. Qed.
Example grammar_goalless : build_grammar goalless_language = Abort.
Proof. reflexivity. Qed.

(* ------------------------------------------------------------------ *)
(** C63: whatever parser is built, reading with it stays within its tables, and what it reads is a sentence of the
    language, read to the value of a tree of that sentence. *)
Theorem parsers_read_sentences : forall l g fuel p, build_grammar l = Ok (Some g) -> build_lalr_parser fuel g = Ok p ->
  exists goal, goal_name l goal /\ forall V (acts : actions_of V) w n, tokens_in l w ->
    exists r, read_all n p acts w = Ok r /\ forall v, r = Read v -> exists t, denotes l goal t /\ yield t = w /\ value acts t = Some v.
Proof. exact language_sound. Qed.
(** Giving the loops of the construction more turns does not change the parser. *)
Theorem parsers_determined : forall g fuel fuel', build_lalr_parser fuel g <> UB -> build_lalr_parser fuel' g <> UB ->
  build_lalr_parser fuel g = build_lalr_parser fuel' g.
Proof. exact (fun g fuel fuel' => build_agree fuel fuel' g). Qed.

Example list_parser : build_lalr_parser 6 (grammar_of list_language) = Ok (parser_of 6 list_language).
Proof. vm_compute. reflexivity. Qed.
Example list_read : read_all 10 (parser_of 6 list_language) tree_actions [(0, [120]); (0, [120])] =
  Ok (Read (Node 0 [Node 2 [Leaf 0 [120]; Node 1 [Leaf 0 [120]]]])).
Proof. vm_compute. reflexivity. Qed.
Example list_refused : read_all 10 (parser_of 6 list_language) tree_actions [] = Ok Refused.
Proof. vm_compute. reflexivity. Qed.
Example ambiguous_refused : build_lalr_parser 6 (grammar_of ambiguous_language) = Abort.
Proof. vm_compute. reflexivity. Qed.

(* ------------------------------------------------------------------ *)
(** C64: the parsers of the library's own languages decide them: every text, as tokens, has at most one tree; reading
    comes to an end on all of them, with the value of the tree (or where one of the actions throws), or by refusing
    exactly the texts without trees. *)
Theorem library_languages_decided : forall l, In l [regex_language; math_language; xml_language; yaml_language] ->
  exists g p goal, build_grammar l = Ok (Some g) /\ (exists fuel, build_lalr_parser fuel g = Ok p) /\ goal_name l goal /\
    forall V (acts : actions_of V) w, tokens_in l w ->
      (exists t, denotes l goal t /\ yield t = w /\ (forall t', denotes l goal t' -> yield t' = w -> t' = t) /\ ends_with p acts w (result_of acts t)) \/
      ((forall t, denotes l goal t -> yield t <> w) /\ ends_with p acts w Refused).
Proof. exact languages_decided. Qed.
(** In general every sentence of an LR(0) language is read to the value of its only tree. *)
Theorem lr0_languages_read : forall l g p, build_grammar l = Ok (Some g) -> needs_no_contexts g p ->
  exists goal, goal_name l goal /\
    (forall V (acts : actions_of V) t, denotes l goal t -> ends_with p acts (yield t) (result_of acts t)) /\
    (forall t t', denotes l goal t -> denotes l goal t' -> yield t = yield t' -> t = t').
Proof. exact language_lr0. Qed.
(** The same for every parser that reduces on the lookahead sets of the textbook. *)
Theorem covering_parsers_read : forall l g fuel p, build_grammar l = Ok (Some g) -> build_lalr_parser fuel g = Ok p -> covers p ->
  exists goal, goal_name l goal /\
    (forall V (acts : actions_of V) t, denotes l goal t -> ends_with p acts (yield t) (result_of acts t)) /\
    (forall t t', denotes l goal t -> denotes l goal t' -> yield t = yield t' -> t = t').
Proof. exact language_covered. Qed.
(** A language that a parser of this kind decides may be refused. *)
Theorem lalr1_languages_accepted_refuted : exists g p goal, build_grammar refused_language = Ok (Some g) /\ p_grammar p = g /\ goal_name refused_language goal /\
  (forall V (acts : actions_of V) w, tokens_in refused_language w ->
      (exists t, denotes refused_language goal t /\ yield t = w /\ (forall t', denotes refused_language goal t' -> yield t' = w -> t' = t) /\ ends_with p acts w (result_of acts t)) \/
      ((forall t, denotes refused_language goal t -> yield t <> w) /\ ends_with p acts w Refused)) /\
  forall fuel p', build_lalr_parser fuel g <> Ok p'.
Proof. exact refused_by_lanes. Qed.
(** With a grammar that has useless symbols, reading may go on for ever, growing its stack. *)
Theorem reading_ends_refuted : exists g p, build_grammar endless_language = Ok (Some g) /\ (exists fuel, build_lalr_parser fuel g = Ok p) /\
  forall V (acts : actions_of V) n w, at_reduce acts 2 [] <> None -> tokens_in endless_language w -> read_all n p acts w = Ok Reading.
Proof. exact endless_reading. Qed.

Example nested_lr0 : needs_no_contexts (grammar_of nested_language) (parser_of 6 nested_language).
Proof. apply no_contexts_built. vm_compute. reflexivity. Qed.
Example nested_read : read_all 10 (parser_of 6 nested_language) tree_actions [(0, [40]); (2, [120]); (1, [41])] =
  Ok (Read (Node 0 [Node 1 [Leaf 0 [40]; Node 2 [Leaf 2 [120]]; Leaf 1 [41]]])).
Proof. vm_compute. reflexivity. Qed.
(** 1 - 1 - 1 groups to the left *)
Example math_read : exists p, build_lalr_parser 20 (grammar_of math_language) = Ok p /\
  read_all 60 p tree_actions [(19, [49]); (3, [45]); (19, [49]); (3, [45]); (19, [49])] =
    Ok (Read (Node 0 [Node 1 []; Node 5 [Node 6 [Node 7 [
      Node 24 [Node 24 [Node 10 [Node 11 [Node 12 [Node 13 [Node 35 [Leaf 19 [49]; Node 37 []]]]]]; Leaf 3 [45]; Node 37 [];
                        Node 11 [Node 12 [Node 13 [Node 35 [Leaf 19 [49]; Node 37 []]]]]]; Leaf 3 [45]; Node 37 [];
               Node 11 [Node 12 [Node 13 [Node 35 [Leaf 19 [49]; Node 37 []]]]]]]]]])).
Proof. exists (parser_of 20 math_language). vm_compute. split; reflexivity. Qed.

Print Assumptions grammar_has_the_trees.
Print Assumptions grammar_when.
Print Assumptions parsers_read_sentences.
Print Assumptions parsers_determined.
Print Assumptions library_languages_decided.
Print Assumptions lr0_languages_read.
Print Assumptions covering_parsers_read.
Print Assumptions lalr1_languages_accepted_refuted.
Print Assumptions reading_ends_refuted.
