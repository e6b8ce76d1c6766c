(** C57-C60: finite automata and the lexers built of them. *)
From Verif Require Import Prelude M_Automaton S_Automaton P_Automaton3 P_Automaton4 P_Automaton6 P_Automaton7 X_Automaton.
Local Open Scope Z_scope.

(** C57: uniting, concatenating and repeating automata does so to the words they recognise. *)
Theorem unite_recognises : forall a b, well_formed a -> well_formed b -> get_nsymbols a = get_nsymbols b ->
  exists fa, unite a b = Ok fa /\ well_formed fa /\ get_nsymbols fa = get_nsymbols a /\ is_deterministic fa = false /\
  (final_accepts a -> final_accepts b -> final_accepts fa) /\
  (forall w tk, recognises fa w tk <-> recognises a w tk \/ recognises b w tk).
Proof. exact unite_correct. Qed.
Theorem concat_recognises : forall a b token, well_formed a -> well_formed b -> get_nsymbols a = get_nsymbols b -> 0 <= token ->
  quiet_accepts a ->
  exists fa, concat a b token = Ok fa /\ well_formed fa /\ get_nsymbols fa = get_nsymbols a /\ is_deterministic fa = false /\
  (final_accepts b -> final_accepts fa) /\
  (forall w tk, recognises fa w tk <->
     tk = token /\ exists u v, w = u ++ v /\ (exists t, recognises a u t) /\ (exists t, recognises b v t)).
Proof. exact concat_correct. Qed.
Theorem plus_recognises : forall a token, well_formed a -> 0 <= token -> quiet_accepts a ->
  exists fa, plus a token = Ok fa /\ well_formed fa /\ get_nsymbols fa = get_nsymbols a /\ is_deterministic fa = false /\ final_accepts fa /\
  (forall w tk, recognises fa w tk <->
     tk = token /\ exists ws, ws <> [] /\ w = List.concat ws /\ Forall (fun u => exists t, recognises a u t) ws).
Proof. exact plus_correct. Qed.
Theorem star_recognises : forall a token, well_formed a -> 0 <= token -> quiet_accepts a ->
  exists fa, star a token = Ok fa /\ well_formed fa /\ get_nsymbols fa = get_nsymbols a /\ is_deterministic fa = false /\ final_accepts fa /\
  (forall w tk, recognises fa w tk <->
     tk = token /\ exists ws, w = List.concat ws /\ Forall (fun u => exists t, recognises a u t) ws).
Proof. exact star_correct. Qed.
(** maybe is right for automata whose accepting states have no moves (all those built from regular expressions) *)
Theorem maybe_recognises : forall a token, well_formed a -> 0 <= token -> final_accepts a ->
  exists fa, maybe a token = Ok fa /\ well_formed fa /\ get_nsymbols fa = get_nsymbols a /\ is_deterministic fa = false /\ final_accepts fa /\
  (forall w tk, recognises fa w tk <-> tk = token /\ (w = [] \/ exists t, recognises a w t)).
Proof. exact maybe_correct. Qed.
(** and wrong for others: of x y* it makes an automaton that recognises y alone *)
Theorem maybe_recognises_any_refuted : well_formed xy_star /\ quiet_accepts xy_star /\
  exists fa, maybe xy_star 0 = Ok fa /\ recognises fa [1] 0 /\ [1] <> [] /\ forall t, ~ recognises xy_star [1] t.
Proof. exact (conj xy_star_wf (conj xy_star_quiet maybe_wrong)). Qed.
Print Assumptions unite_recognises.
Print Assumptions concat_recognises.
Print Assumptions plus_recognises.
Print Assumptions star_recognises.
Print Assumptions maybe_recognises.
Print Assumptions maybe_recognises_any_refuted.

Example just_x_ok : well_formed just_x /\ final_accepts just_x /\ quiet_accepts just_x /\ well_formed just_y /\ get_nsymbols just_x = get_nsymbols just_y.
Proof. exact (conj just_x_wf (conj just_x_final (conj (final_quiet' _ just_x_final) (conj just_y_wf eq_refl)))). Qed.
Example built_ex : exists u c p, unite just_x just_y = Ok u /\ concat just_x just_y 3 = Ok c /\ star u 4 = Ok p /\ zlen (table u) = 5 /\ zlen (table c) = 4 /\ zlen (table p) = 8.
Proof. do 3 eexists. repeat (split; [vm_compute; reflexivity|]); vm_compute; reflexivity. Qed.

(** C58: the deterministic automaton gives for every word the least token the given one can recognise it as. *)
Theorem make_deterministic_least_token : forall fa, well_formed fa -> 0 < get_nsymbols fa ->
  exists d, make_deterministic fa = Ok d /\ well_formed d /\ is_deterministic d = true /\ get_nsymbols d = get_nsymbols fa /\
  forall w, over fa w -> exists m, run d 0 w = Ok m /\ -1 <= m /\ least (recognises fa w) m.
Proof. exact determinised. Qed.
Print Assumptions make_deterministic_least_token.
(** x* and xx with tokens 1 and 0: xx is both, x only the first, y neither *)
Example deterministic_ex : exists s xx u d, star just_x 1 = Ok s /\ concat just_x just_x 0 = Ok xx /\ unite s xx = Ok u /\ make_deterministic u = Ok d /\
  is_deterministic u = false /\ map (run d 0) [[]; [0]; [0; 0]; [0; 0; 0]; [1]; [0; 1]] = [Ok 1; Ok 1; Ok 0; Ok 1; Ok (-1); Ok (-1)].
Proof. do 4 eexists. repeat (split; [vm_compute; reflexivity|]); vm_compute; reflexivity. Qed.

(** C59: simplify changes nothing a user of the automaton can see, and leaves no two states alike. *)
Theorem simplify_preserves : forall fa, well_formed fa ->
  exists out, simplify fa = Ok out /\ well_formed out /\ get_nsymbols out = get_nsymbols fa /\ is_deterministic out = is_deterministic fa /\
  zlen (table out) <= zlen (table fa) /\ (forall w tk, recognises out w tk <-> recognises fa w tk) /\
  (forall w, over fa w -> run out 0 w = run fa 0 w) /\ apart out.
Proof. exact simplify_correct. Qed.
(** It does not find the least automaton. *)
Theorem simplify_least_refuted : simplify turns = Ok turns /\ well_formed turns /\ is_deterministic turns = true /\
  well_formed turns1 /\ is_deterministic turns1 = true /\ zlen (table turns1) < zlen (table turns) /\
  forall w tk, recognises turns1 w tk <-> recognises turns w tk.
Proof. exact simplify_not_least. Qed.
Print Assumptions simplify_preserves.
Print Assumptions simplify_least_refuted.
Example simplify_ex : exists u d o, unite just_x just_y = Ok u /\ make_deterministic u = Ok d /\ simplify d = Ok o /\ zlen (table d) = 3 /\ zlen (table o) = 2.
Proof. do 3 eexists. repeat (split; [vm_compute; reflexivity|]); vm_compute; reflexivity. Qed.

(** C60: an automaton built from a regular expression decides whether a text matches it; a lexer gives the first
    expression of the language that matches. *)
Theorem regex_automaton_decides : forall r token, regex_ok r -> 0 <= token ->
  exists d, build_dfa r token = Ok d /\ well_formed d /\ is_deterministic d = true /\ get_nsymbols d = NCHARS /\
  forall w sy, mapM get_symbol w = Ok sy -> (run d 0 sy = Ok token /\ matches r w) \/ (run d 0 sy = Ok (-1) /\ ~ matches r w).
Proof. exact dfa_decides. Qed.
Theorem lexer_gives_first_match : forall rs, rs <> [] -> (forall r, In r rs -> regex_ok r) ->
  exists d, build_lexer rs = Ok d /\ well_formed d /\ is_deterministic d = true /\ get_nsymbols d = NCHARS /\
  forall w sy, mapM get_symbol w = Ok sy -> exists m, run d 0 sy = Ok m /\ first_match rs w m.
Proof. exact build_lexer_correct. Qed.
(** Symbols and characters are the same thing, for exactly the readable characters. *)
Theorem symbols_are_characters : (forall c, readable c <-> exists s, get_symbol c = Ok s) /\
  (forall c s, get_symbol c = Ok s -> 0 <= s < NCHARS /\ get_char s = Ok c) /\
  (forall s, 0 <= s < NCHARS -> exists c, get_char s = Ok c /\ get_symbol c = Ok s) /\
  (forall c, -128 <= c < 128 -> ~ readable c -> get_symbol c = Abort /\ is_symbol c = Ok false).
Proof. exact symbols_inverse. Qed.
(** An expression with another character is refused. *)
Theorem unreadable_expression_refused : forall c token, -128 <= c < 128 -> ~ readable c -> build_dfa (RChar c) token = Abort.
Proof. exact unreadable_refused. Qed.
Print Assumptions regex_automaton_decides.
Print Assumptions lexer_gives_first_match.
Print Assumptions symbols_are_characters.
Print Assumptions unreadable_expression_refused.
Example small_language_ok : small_language <> [] /\ forall r, In r small_language -> regex_ok r.
Proof. exact small_ok. Qed.
(** x1, 1x, 42 and nothing *)
Example small_language_runs : exists d, build_lexer small_language = Ok d /\
  map (fun w => s <- mapM get_symbol w ;; run d 0 s) [[120; 49]; [49; 120]; [52; 50]; []; [32; 10]] = [Ok 0; Ok (-1); Ok 1; Ok (-1); Ok 2].
Proof. eexists. split; [vm_compute; reflexivity|]; vm_compute; reflexivity. Qed.
