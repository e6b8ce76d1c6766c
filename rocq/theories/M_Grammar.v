(** Model of src/Omega_h_grammar.cpp and of build_grammar, src/Omega_h_language.cpp:15-52.
    Symbol names only serve messages and the lookup in build_grammar; they are lists of character codes. *)
From Verif Require Import Prelude M_Automaton.
Local Open Scope Z_scope.

(** struct Grammar, src/Omega_h_grammar.hpp:13-24 *)
Record production := mk_production { lhs : Z; rhs : list Z }.
Record grammar := mk_grammar { nsymbols : Z; nterminals : Z; productions : list production }.

(** src/Omega_h_grammar.cpp:11 *)
Definition get_nnonterminals (g : grammar) : Z := nsymbols g - nterminals g.
(** src/Omega_h_grammar.cpp:13-21; the second check lets symbol = nsymbols pass *)
Definition is_terminal (g : grammar) (symbol : Z) : res bool :=
  _ <- check (0 <=? symbol) ;; _ <- check (symbol <=? nsymbols g) ;; Ok (symbol <? nterminals g).
Definition is_nonterminal (g : grammar) (symbol : Z) : res bool := b <- is_terminal g symbol ;; Ok (negb b).
(** src/Omega_h_grammar.cpp:23-25 *)
Definition as_nonterminal (g : grammar) (symbol : Z) : Z := symbol - nterminals g.

(** src/Omega_h_grammar.cpp:27-51 *)
Definition find_goal_symbol (g : grammar) : res Z :=
  nonterminals_in_rhss <- foldM (fun s p => foldM (fun s x =>
    _ <- check (0 <=? x) ;; b <- is_nonterminal g x ;; Ok (if (b : bool) then set_insert x s else s)) (rhs p) s) (productions g) [] ;;
  result <- foldM (fun result s =>
    if set_count s nonterminals_in_rhss then Ok result
    else _ <- check (result =? -1) ;; Ok s) (zfromto (nterminals g) (nsymbols g)) (-1) ;;
  _ <- check (negb (result =? -1)) ;; Ok result.

(** src/Omega_h_grammar.cpp:53-63 *)
Definition shift_symbol (g : grammar) (s : Z) : res Z := b <- is_nonterminal g s ;; Ok (if (b : bool) then s + 1 else s).
Definition add_end_terminal (g : grammar) : res grammar :=
  ps <- mapM (fun p => l <- shift_symbol g (lhs p) ;; r <- mapM (shift_symbol g) (rhs p) ;; Ok (mk_production l r)) (productions g) ;;
  Ok (mk_grammar (nsymbols g + 1) (nterminals g + 1) ps).
(** src/Omega_h_grammar.cpp:65 *)
Definition get_end_terminal (g : grammar) : Z := nterminals g - 1.
(** src/Omega_h_grammar.cpp:67-75 *)
Definition add_accept_production (g : grammar) : res grammar :=
  goal_symbol <- find_goal_symbol g ;;
  Ok (mk_grammar (nsymbols g + 1) (nterminals g) (productions g ++ [mk_production (nsymbols g) [goal_symbol]])).
(** src/Omega_h_grammar.cpp:77-79 *)
Definition get_accept_production (g : grammar) : Z := zlen (productions g) - 1.
Definition get_accept_nonterminal (g : grammar) : Z := nsymbols g - 1.

(** struct Language, src/Omega_h_language.hpp: the names of the tokens and the productions, in order; the regular
    expressions of the tokens are separate (build_lexer in M_Automaton.v). *)
Record language := mk_language { token_names : list (list Z); named_productions : list (list Z * list (list Z)) }.

(** std::map<std::string, int>: count, operator[] on a present key, and assignment of a key *)
Fixpoint lookup_name (m : list (list Z * Z)) (name : list Z) : option Z :=
  match m with
  | [] => None
  | (k, v) :: m => if list_eq_dec Z.eq_dec k name then Some v else lookup_name m name
  end.
Definition assign_name (m : list (list Z * Z)) (name : list Z) (v : Z) : list (list Z * Z) := (name, v) :: m.

(** src/Omega_h_language.cpp:15-52: None when ParserFail is thrown *)
Definition name_symbols (l : language) : list (list Z * Z) * Z * Z :=
  let '(m, nterminals) := fold_left (fun '(m, n) name => (assign_name m name n, n + 1)) (token_names l) ([], 0) in
  let '(m, nsymbols) := fold_left (fun '(m, n) p =>
    match lookup_name m (fst p) with Some _ => (m, n) | None => (assign_name m (fst p) n, n + 1) end) (named_productions l) (m, nterminals) in
  (m, nsymbols, nterminals).
Definition build_grammar (l : language) : res (option grammar) :=
  let '(symbol_map, nsymbols, nterminals) := name_symbols l in
  ps <- mapM (fun p =>
    match lookup_name symbol_map (fst p) with
    | None => Abort
    | Some l => Ok (option_map (mk_production l) (fold_right (fun s r =>
        match lookup_name symbol_map s, r with Some x, Some r => Some (x :: r) | _, _ => None end) (Some []) (snd p)))
    end) (named_productions l) ;;
  match fold_right (fun p r => match p, r with Some p, Some r => Some (p :: r) | _, _ => None end) (Some []) ps with
  | None => Ok None
  | Some ps =>
      g <- add_end_terminal (mk_grammar nsymbols nterminals ps) ;;
      g <- add_accept_production g ;; Ok (Some g)
  end.
