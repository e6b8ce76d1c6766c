(** Cutting text into tokens: the part of src/Omega_h_reader.cpp that reads characters and drives the lexer. *)
From Verif Require Import Prelude M_Automaton.
Local Open Scope Z_scope.

(** What at_token_indent sees when it is called, src/Omega_h_reader.cpp:201-202: lexer_token and lexer_text; line,
    column and line_text are what an error message would report. *)
Record lexeme := mk_lexeme { lm_token : Z; lm_text : list Z; lm_line : Z; lm_column : Z; lm_line_text : list Z }.

(** Members of Reader that the lexer uses, src/Omega_h_reader.hpp:35-43.  Strings are lists of character codes. *)
Record lexing := mk_lexing {
  line : Z; column : Z; lexer_state : Z; lexer_text : list Z; line_text : list Z; lexer_token : Z;
  last_lexer_accept : Z; last_lexer_accept_line : Z; last_lexer_accept_column : Z; last_lexer_accept_line_text : list Z }.

(** src/Omega_h_reader.cpp:255-260: the start of read_stream.  The last_lexer_accept members keep the values they had,
    which for a new reader are indeterminate: they are those of [before]. *)
Definition start_lexing (before : lexing) : lexing :=
  mk_lexing 1 1 0 [] [] (-1) (last_lexer_accept before) (last_lexer_accept_line before) (last_lexer_accept_column before)
    (last_lexer_accept_line_text before).

(** src/Omega_h_reader.cpp:215-223 update_position *)
Definition update_position (c : Z) (r : lexing) : lexing :=
  if c =? 10 then
    mk_lexing (line r + 1) 1 (lexer_state r) (lexer_text r) [] (lexer_token r) (last_lexer_accept r)
      (last_lexer_accept_line r) (last_lexer_accept_column r) (last_lexer_accept_line_text r)
  else
    mk_lexing (line r) (column r + 1) (lexer_state r) (lexer_text r) (line_text r) (lexer_token r) (last_lexer_accept r)
      (last_lexer_accept_line r) (last_lexer_accept_column r) (last_lexer_accept_line_text r).

(** src/Omega_h_reader.cpp:288-294: an accepting state has been reached *)
Definition note_accept (token : Z) (r : lexing) : lexing :=
  if token =? -1 then r
  else mk_lexing (line r) (column r) (lexer_state r) (lexer_text r) (line_text r) token (zlen (lexer_text r)) (line r)
         (column r) (line_text r).

(** src/Omega_h_reader.cpp:277-280: the character is added and the automaton stepped *)
Definition push_char (c state : Z) (r : lexing) : lexing :=
  mk_lexing (line r) (column r) state (lexer_text r ++ [c]) (line_text r ++ [c]) (lexer_token r) (last_lexer_accept r)
    (last_lexer_accept_line r) (last_lexer_accept_column r) (last_lexer_accept_line_text r).

(** src/Omega_h_reader.cpp:168-179 backtrack_to_last_accept: the characters after the last accept go back to the
    stream (second component).  The stream is a string: unget never fails. *)
Definition backtrack_to_last_accept (r : lexing) : lexing * list Z :=
  let n := Z.to_nat (last_lexer_accept r) in
  (mk_lexing (last_lexer_accept_line r) (last_lexer_accept_column r) (lexer_state r) (firstn n (lexer_text r))
     (last_lexer_accept_line_text r) (lexer_token r) (last_lexer_accept r) (last_lexer_accept_line r)
     (last_lexer_accept_column r) (last_lexer_accept_line_text r), skipn n (lexer_text r)).

(** src/Omega_h_reader.cpp:181-185 reset_lexer_state *)
Definition reset_lexer_state (r : lexing) : lexing :=
  mk_lexing (line r) (column r) 0 [] (line_text r) (-1) (last_lexer_accept r) (last_lexer_accept_line r)
    (last_lexer_accept_column r) (last_lexer_accept_line_text r).

(** src/Omega_h_reader.cpp:187-204 at_lexer_end: None when it throws ParserFail (the check that the line is at least
    as long as the text, on the way to that, aborts); otherwise the token handed on, the reset reader and the
    characters given back.  The parser is taken to accept the token. *)
Definition at_lexer_end (r : lexing) : res (option (lexeme * lexing * list Z)) :=
  if lexer_token r =? -1 then
    if set_count 10 (lexer_text r) then Ok None
    else _ <- check (zlen (lexer_text r) <=? zlen (line_text r)) ;; Ok None
  else
    let (r, back) := backtrack_to_last_accept r in
    Ok (Some (mk_lexeme (lexer_token r) (lexer_text r) (line r) (column r) (line_text r), reset_lexer_state r, back)).

(** The loop of read_stream and what follows it up to the end terminal, src/Omega_h_reader.cpp:267-305, with the
    tokens produced so far.  The result: the tokens, and whether the text was used up (true) or ParserFail was thrown
    (false).  Running out of fuel is UB, which the theorems exclude. *)
Fixpoint lex_loop (fuel : nat) (lexer : automaton) (r : lexing) (stream : list Z) (out : list lexeme)
    : res (list lexeme * bool) :=
  match fuel with
  | O => UB
  | S fuel =>
      match stream with
      | [] =>
          if last_lexer_accept r <? zlen (lexer_text r) then Ok (out, false)
          else
            e <- at_lexer_end r ;;
            match e with
            | None => Ok (out, false)
            | Some (t, _, _) => Ok (out ++ [t], true)
            end
      | c :: stream =>
          known <- is_symbol c ;;
          if negb known then Ok (out, false)
          else
            lexer_symbol <- get_symbol c ;;
            state <- step lexer (lexer_state r) lexer_symbol ;;
            let r := push_char c state r in
            if state =? -1 then
              e <- at_lexer_end r ;;
              match e with
              | None => Ok (out, false)
              | Some (t, r, back) => lex_loop fuel lexer r (back ++ stream) (out ++ [t])
              end
            else
              token <- accepts lexer state ;;
              lex_loop fuel lexer (note_accept token (update_position c r)) stream out
      end
  end.

(** The tokens of a text; [before] holds what the reader's members were before. *)
Definition tokens_of (lexer : automaton) (before : lexing) (text : list Z) : res (list lexeme * bool) :=
  lex_loop ((length text + 2) * (length text + 2)) lexer (start_lexing before) text [].
