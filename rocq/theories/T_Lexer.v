(** C61: text is cut into tokens by the longest match rule. *)
From Verif Require Import Prelude M_Automaton S_Automaton M_Lexer S_Lexer P_Lexer P_Lexer2 X_Automaton.
Local Open Scope Z_scope.

(** Reading always comes to an end, with success exactly when the text can be cut by the rule and the automaton gets
    stuck within the text after each token but the last; then the tokens are those. *)
Theorem lexing_success : forall d, well_formed d -> is_deterministic d = true -> get_nsymbols d = NCHARS -> forall before x,
  (forall c, In c x -> -128 <= c < 128) ->
  (exists out, tokens_of d before x = Ok (out, true) /\ munches_stuck d x (cut out)) \/
  (exists out, tokens_of d before x = Ok (out, false) /\ forall ts, ~ munches_stuck d x ts).
Proof. exact lexing_decides. Qed.
(** The tokens, also those before a failure, are the longest ones, and with what is left they make up the text. *)
Theorem lexing_longest_match : forall d, well_formed d -> is_deterministic d = true -> get_nsymbols d = NCHARS -> forall before x out b,
  (forall c, In c x -> -128 <= c < 128) -> tokens_of d before x = Ok (out, b) ->
  exists left, munches d x (cut out) left /\ x = texts out ++ left /\ (b = true -> left = []).
Proof. exact lexing_longest. Qed.
(** The same without automata: the lexer of a language cuts every text by its regular expressions, and there is only
    one way to do so. *)
Theorem lexing_language : forall rs, rs <> [] -> (forall r, In r rs -> regex_ok r) ->
  exists d, build_lexer rs = Ok d /\ forall before x, (forall c, In c x -> -128 <= c < 128) ->
    exists out b left, tokens_of d before x = Ok (out, b) /\ language_cut rs x (cut out) left /\ x = texts out ++ left /\ (b = true -> left = []).
Proof. exact language_lexed. Qed.
Theorem language_cut_once : forall rs x ts, language_cut rs x ts [] -> forall ts', language_cut rs x ts' [] -> ts = ts'.
Proof. exact language_cut_unique. Qed.
(** Each token comes with the line and column just after it, and the text of that line so far. *)
Theorem lexing_positions : forall d, well_formed d -> is_deterministic d = true -> get_nsymbols d = NCHARS -> forall before x out b i t,
  (forall c, In c x -> -128 <= c < 128) -> tokens_of d before x = Ok (out, b) -> nth_error out i = Some t ->
  placed (texts (firstn (S i) out)) (lm_line t) (lm_column t) (lm_line_text t).
Proof. exact lexing_places. Qed.
(** What the reader read before does not matter. *)
Theorem lexing_history_independent : forall d, well_formed d -> is_deterministic d = true -> get_nsymbols d = NCHARS -> forall b1 b2 x,
  (forall c, In c x -> -128 <= c < 128) -> tokens_of d b1 x = tokens_of d b2 x.
Proof. exact before_irrelevant. Qed.
(** No empty text can be read. *)
Theorem lexing_empty_fails : forall d, well_formed d -> is_deterministic d = true -> get_nsymbols d = NCHARS -> forall before,
  tokens_of d before [] = Ok ([], false).
Proof. exact lexing_empty. Qed.
(** A text the rule cuts completely may still be refused: the characters after a token are not looked at again at the
    end of the text. *)
Theorem lexing_complete_refuted : exists d, build_lexer hopeful = Ok d /\ language_cut hopeful [97; 98] [(0, [97]); (2, [98])] [] /\
  forall before, tokens_of d before [97; 98] = Ok ([], false).
Proof. exact hopeful_throws. Qed.
Print Assumptions lexing_success.
Print Assumptions lexing_longest_match.
Print Assumptions lexing_language.
Print Assumptions language_cut_once.
Print Assumptions lexing_positions.
Print Assumptions lexing_history_independent.
Print Assumptions lexing_empty_fails.
Print Assumptions lexing_complete_refuted.

(** ab 12 (new line) c3 *)
Example lexing_ex : exists d out, build_lexer small_language = Ok d /\ tokens_of d untouched [97; 98; 32; 49; 50; 10; 99; 51] = Ok (out, true) /\
  cut out = [(0, [97; 98]); (2, [32]); (1, [49; 50]); (2, [10]); (0, [99; 51])] /\
  map (fun t => (lm_line t, lm_column t)) out = [(1, 3); (1, 4); (1, 6); (2, 1); (2, 3)].
Proof. do 2 eexists. repeat (split; [vm_compute; reflexivity|]); vm_compute; reflexivity. Qed.
Example lexing_bad_ex : exists d out, build_lexer small_language = Ok d /\ tokens_of d untouched [97; 32; 33; 98] = Ok (out, false) /\
  cut out = [(0, [97]); (2, [32])].
Proof. do 2 eexists. repeat (split; [vm_compute; reflexivity|]); vm_compute; reflexivity. Qed.
