(** Example languages for the parser theorems. *)
From Verif Require Import Prelude M_Automaton M_Grammar M_Parser M_Lanes M_Languages S_Grammar.
Require Import String.
Local Open Scope Z_scope.

(** P ::= S; S ::= ( S ) | x *)
Definition nested_language : language := mk_language (map name ["("; ")"; "x"])%string
  [rule "P" ["S"]; rule "S" ["("; "S"; ")"]; rule "S" ["x"]]%string.
(** P ::= list; list ::= x | x list, which is not LR(0) *)
Definition list_language : language := mk_language (map name ["x"])%string
  [rule "P" ["list"]; rule "list" ["x"]; rule "list" ["x"; "list"]]%string.
(** S ::= A | x A A; A ::= x, which is LALR(1) *)
Definition refused_language : language := mk_language (map name ["x"])%string
  [rule "S" ["A"]; rule "S" ["x"; "A"; "A"]; rule "A" ["x"]]%string.
(** R ::= S; S ::= A S; A ::=, which has no sentences *)
Definition endless_language : language := mk_language (map name ["x"])%string
  [rule "R" ["S"]; rule "S" ["A"; "S"]; rule "A" []]%string.
(** P ::= S; S ::= S S | x is ambiguous, T is not defined, and A and B derive each other *)
Definition ambiguous_language : language := mk_language (map name ["x"])%string
  [rule "P" ["S"]; rule "S" ["S"; "S"]; rule "S" ["x"]]%string.
Definition undefined_language : language := mk_language (map name ["x"])%string [rule "S" ["x"; "T"]]%string.
Definition goalless_language : language := mk_language (map name ["x"])%string [rule "A" ["B"]; rule "B" ["A"]; rule "B" ["x"]]%string.

Definition grammar_of (l : language) : grammar := match build_grammar l with Ok (Some g) => g | _ => mk_grammar 0 0 [] end.
Definition no_parser : parser := mk_parser (mk_grammar 0 0 []) [] [].
Definition parser_of (fuel : nat) (l : language) : parser := match build_lalr_parser fuel (grammar_of l) with Ok p => p | _ => no_parser end.

(** Contexts with which the refused language has a parser *)
Definition refused_contexts (g : grammar) (cs : list config) (states : list state_in_progress) (_ : list bool) : res contexts_of_states :=
  Ok (map (fun s => map (fun c =>
    match zget cs c with
    | Ok (i, _) => Some (if i =? zlen (productions g) - 1 then [nterminals g - 1]
                         else if (i =? 2) && (zlen (configs s) =? 3) then [1] else [0; 1])
    | _ => None
    end) (configs s)) states).
Definition refused_parser : parser := match build_parser refused_contexts (grammar_of refused_language) with Ok p => p | _ => no_parser end.
