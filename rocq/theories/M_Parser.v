(** Model of src/Omega_h_build_parser.cpp (LR(0) machine, adequacy, tables), src/Omega_h_parser.cpp and the part of
    src/Omega_h_reader.cpp that drives the parser.
    The part of build_lalr1_parser that computes the contexts of reductions (src/Omega_h_build_parser.cpp:1043-1076) is a
    parameter here; M_Lanes.v models it.  Printing (verbose, print_dot) is left out. *)
From Verif Require Import Prelude M_Automaton M_Grammar.
Local Open Scope Z_scope.

(** struct Config, src/Omega_h_build_parser.hpp:12-17 *)
Definition config : Type := Z * Z.   (* production, dot *)

(** src/Omega_h_build_parser.cpp:29-39 make_configs *)
Definition make_configs (g : grammar) : res (list config) :=
  cs <- mapM (fun i => p <- vget (productions g) i ;; Ok (map (fun j => (i, j)) (zrange (zlen (rhs p) + 1)))) (zrange (zlen (productions g))) ;;
  Ok (List.concat cs).

(** src/Omega_h_build_parser.cpp:41-52; a ParserGraph is the list of the edge lists of its nodes,
    src/Omega_h_parser_graph.cpp:9-19 *)
Definition get_left_hand_sides_to_start_configs (cs : list config) (g : grammar) : res (list (list Z)) :=
  forM (zlen cs) (repeat [] (Z.to_nat (nsymbols g))) (fun lhs2sc c_i =>
    c <- vget cs c_i ;;
    if 0 <? snd c then Ok lhs2sc
    else p <- vget (productions g) (fst c) ;; e <- vget lhs2sc (lhs p) ;; vset lhs2sc (lhs p) (e ++ [c_i])).

(** What follows the dot, if anything: src/Omega_h_build_parser.cpp:75-79, 152-156 and 162-166 *)
Definition after_dot (cs : list config) (g : grammar) (config_i : Z) : res (option Z) :=
  c <- vget cs config_i ;;
  prod <- vget (productions g) (fst c) ;;
  if snd c =? zlen (rhs prod) then Ok None else s <- vget (rhs prod) (snd c) ;; Ok (Some s).

(** src/Omega_h_build_parser.cpp:81-86: the start configs not yet in the set enter it and the queue *)
Definition close_visit (sq : list Z * list Z) (sc : Z) : list Z * list Z :=
  let '(config_set, config_q) := sq in
  if set_count sc config_set then (config_set, config_q) else (set_insert sc config_set, config_q ++ [sc]).
(** The loop of src/Omega_h_build_parser.cpp:72-87; running out of fuel is UB and the theorems exclude it. *)
Fixpoint close_loop (fuel : nat) (cs : list config) (g : grammar) (lhs2sc : list (list Z)) (config_set config_q : list Z) : res (list Z) :=
  match config_q with
  | [] => Ok config_set
  | config_i :: config_q =>
      match fuel with
      | O => UB
      | S fuel =>
          a <- after_dot cs g config_i ;;
          match a with
          | None => close_loop fuel cs g lhs2sc config_set config_q
          | Some symbol_after_dot =>
              t <- is_terminal g symbol_after_dot ;;
              if (t : bool) then close_loop fuel cs g lhs2sc config_set config_q
              else
                scs <- vget lhs2sc symbol_after_dot ;;
                let '(config_set, config_q) := fold_left close_visit scs (config_set, config_q) in
                close_loop fuel cs g lhs2sc config_set config_q
          end
      end
  end.
(** src/Omega_h_build_parser.cpp:63-89 close *)
Definition close (configs : list Z) (cs : list config) (g : grammar) (lhs2sc : list (list Z)) : res (list Z) :=
  config_set <- foldM (fun s config_i => _ <- check (negb (set_count config_i s)) ;; Ok (set_insert config_i s)) configs [] ;;
  close_loop (length cs) cs g lhs2sc config_set configs.

(** struct Action, src/Omega_h_parser.hpp:12-24 *)
Inductive action := Shift (next_state : Z) | Reduce (production : Z).
(** struct ActionInProgress and StateInProgress, src/Omega_h_build_parser.hpp:23-33: an action with its context *)
Record state_in_progress := mk_sip { configs : list Z; actions : list (action * list Z) }.

(** One transition symbol, src/Omega_h_build_parser.cpp:159-188: the states, the map from config sets to states (the
    queue holds the states not looked at yet, in order of their numbers) and the actions of the state so far *)
Definition lr0_transition (cs : list config) (g : grammar) (lhs2sc : list (list Z)) (state_configs : list Z)
    (st : list state_in_progress * list (list Z * Z) * list (action * list Z)) (symbol : Z) :=
  let '(states, idxs, acts) := st in
  next <- foldM (fun next config_i =>
    a <- after_dot cs g config_i ;;
    match a with
    | None => Ok next
    | Some s => Ok (if s =? symbol then next ++ [config_i + 1] else next)
    end) state_configs [] ;;
  next <- close next cs g lhs2sc ;;
  match find_set idxs next with
  | None => Ok (states ++ [mk_sip next []], idxs ++ [(next, zlen states)], acts ++ [(Shift (zlen states), [symbol])])
  | Some i => Ok (states, idxs, acts ++ [(Shift i, [symbol])])
  end.
(** The loop of src/Omega_h_build_parser.cpp:146-189 for one state; it ends when all states have been looked at. *)
Definition lr0_iteration (cs : list config) (g : grammar) (lhs2sc : list (list Z))
    (st : (list state_in_progress * list (list Z * Z)) * Z) : res (((list state_in_progress * list (list Z * Z)) * Z) + list state_in_progress) :=
  let '((states, idxs), state_i) := st in
  if state_i <? zlen states then
    state <- vget states state_i ;;
    transition_symbols <- foldM (fun ss config_i =>
      a <- after_dot cs g config_i ;; Ok (match a with None => ss | Some s => set_insert s ss end)) (configs state) [] ;;
    '(states, idxs, acts) <- foldM (lr0_transition cs g lhs2sc (configs state)) transition_symbols (states, idxs, []) ;;
    states <- vset states state_i (mk_sip (configs state) acts) ;;
    Ok (inl ((states, idxs), state_i + 1))
  else Ok (inr states).

(** src/Omega_h_build_parser.cpp:96-127 add_reduction_actions and set_lr0_contexts, for one state *)
Definition add_reductions (cs : list config) (g : grammar) (s : state_in_progress) : res state_in_progress :=
  acts <- foldM (fun acts config_i =>
    c <- vget cs config_i ;;
    prod <- vget (productions g) (fst c) ;;
    if negb (snd c =? zlen (rhs prod)) then Ok acts
    else Ok (acts ++ [(Reduce (fst c),
                       if fst c =? get_accept_production g then [get_end_terminal g] else zrange (nterminals g))]))
    (configs s) (actions s) ;;
  Ok (mk_sip (configs s) acts).

(** src/Omega_h_build_parser.cpp:129-193 build_lr0_parser; the loop is given 2^(number of configs + 1) iterations. front() of an empty
    edge list would be undefined: the accept symbol always has its production. *)
Definition build_lr0_parser (cs : list config) (g : grammar) (lhs2sc : list (list Z)) : res (list state_in_progress) :=
  e <- vget lhs2sc (get_accept_nonterminal g) ;;
  start_accept_config <- match e with [] => UB | c :: _ => Ok c end ;;
  start <- close [start_accept_config] cs g lhs2sc ;;
  states <- finish (iterate (S (length cs)) (lr0_iteration cs g lhs2sc) (([mk_sip start []], [(start, 0)]), 0)) ;;
  mapM (add_reductions cs g) states.

(** src/Omega_h_set.hpp:29-36 *)
Definition intersects (a b : list Z) : bool := existsb (fun x => set_count x a) b.
(** Shift actions on nonterminals are skipped: src/Omega_h_build_parser.cpp:980-983 and 986-989.  The symbol is the first
    of the context; an empty context would be dereferenced past its end. *)
Definition is_goto (g : grammar) (a : action * list Z) : res bool :=
  match a with
  | (Shift _, s :: _) => is_nonterminal g s
  | (Shift _, []) => UB
  | (Reduce _, _) => Ok false
  end.
(** src/Omega_h_build_parser.cpp:972-1021 determine_adequate_states for one state.  The loops break at the first
    conflict, so later symbols are not looked at; looking at all gives the same answer here. *)
Fixpoint adequate_from (g : grammar) (acts : list (action * list Z)) : res bool :=
  match acts with
  | [] => Ok true
  | a :: rest =>
      skip <- is_goto g a ;;
      if (skip : bool) then adequate_from g rest
      else
        conflict <- foldM (fun (c : bool) b => s <- is_goto g b ;; Ok (if (s : bool) then c else c || intersects (snd b) (snd a))) rest false ;;
        if (conflict : bool) then Ok false else adequate_from g rest
  end.
(** What the computation of contexts leaves: for each state and each of its configs, the context if complete. *)
Definition contexts_of_states : Type := list (list (option (list Z))).
(** src/Omega_h_build_parser.cpp:1079-1095, for one state: reductions whose config is complete get its context *)
Definition set_contexts (cs : list config) (g : grammar) (s : state_in_progress) (ctx : list (option (list Z))) : res state_in_progress :=
  acts <- foldM (fun acts '(config_i, c) =>
    match c with
    | None => Ok acts
    | Some context =>
        cf <- vget cs config_i ;;
        prod <- vget (productions g) (fst cf) ;;
        if negb (snd cf =? zlen (rhs prod)) then Ok acts
        else Ok (map (fun a => match a with
                               | (Reduce p, old) => if p =? fst cf then (Reduce p, context) else (Reduce p, old)
                               | _ => a
                               end) acts)
    end) (combine (configs s) ctx) (actions s) ;;
  Ok (mk_sip (configs s) acts).

(** src/Omega_h_build_parser.cpp:1023-1107 build_lalr1_parser; [trace] computes the contexts, lines 1043-1076 *)
Definition build_lalr1_parser (trace : grammar -> list config -> list state_in_progress -> list bool -> res contexts_of_states)
    (g : grammar) : res (list state_in_progress) :=
  cs <- make_configs g ;;
  lhs2cs <- get_left_hand_sides_to_start_configs cs g ;;
  states <- build_lr0_parser cs g lhs2cs ;;
  adequate <- mapM (fun s => adequate_from g (actions s)) states ;;
  if forallb (fun b => b) adequate then Ok states
  else
    ctxs <- trace g cs states adequate ;;
    states <- mapM (fun '(s, ctx) => set_contexts cs g s ctx) (combine states ctxs) ;;
    adequate <- mapM (fun s => adequate_from g (actions s)) states ;;
    _ <- check (forallb (fun b => b) adequate) ;; Ok states.

(** struct Parser, src/Omega_h_parser.hpp:26-34: rows of the two tables; None is ACTION_NONE *)
Record parser := mk_parser { p_grammar : grammar; terminal_table : list (list (option action)); nonterminal_table : list (list Z) }.

(** src/Omega_h_parser.cpp:12-25 *)
Definition add_parser_state (p : parser) : parser :=
  mk_parser (p_grammar p) (terminal_table p ++ [repeat None (Z.to_nat (nterminals (p_grammar p)))])
    (nonterminal_table p ++ [repeat (-1) (Z.to_nat (get_nnonterminals (p_grammar p)))]).
(** at(Table, row, col), src/Omega_h_table.hpp:40-56 *)
Definition cell_get {A} (t : list (list A)) (row col : Z) : res A := r <- vget t row ;; vget r col.
Definition cell_set {A} (t : list (list A)) (row col : Z) (v : A) : res (list (list A)) :=
  r <- vget t row ;; r <- vset r col v ;; vset t row r.
(** src/Omega_h_parser.cpp:27-38 *)
Definition add_terminal_action (p : parser) (state terminal : Z) (a : action) : res parser :=
  old <- cell_get (terminal_table p) state terminal ;;
  _ <- check (match old with None => true | Some _ => false end) ;;
  _ <- match a with
       | Shift n => _ <- check (0 <=? n) ;; check (n <? zlen (terminal_table p))
       | Reduce i => _ <- check (0 <=? i) ;; check (i <? zlen (productions (p_grammar p)))
       end ;;
  t <- cell_set (terminal_table p) state terminal (Some a) ;;
  Ok (mk_parser (p_grammar p) t (nonterminal_table p)).
(** src/Omega_h_parser.cpp:40-46 *)
Definition add_nonterminal_action (p : parser) (state nonterminal next_state : Z) : res parser :=
  _ <- check (0 <=? next_state) ;; _ <- check (next_state <? zlen (terminal_table p)) ;;
  old <- cell_get (nonterminal_table p) state nonterminal ;;
  _ <- check (old =? -1) ;;
  t <- cell_set (nonterminal_table p) state nonterminal next_state ;;
  Ok (mk_parser (p_grammar p) (terminal_table p) t).

(** src/Omega_h_build_parser.cpp:1109-1132 accept_parser *)
Definition accept_action (g : grammar) (s_i : Z) (out : parser) (a : action * list Z) : res parser :=
  goto <- is_goto g a ;;
  match goto, a with
  | true, (Shift n, s :: _) => add_nonterminal_action out s_i (as_nonterminal g s) n
  | _, _ => foldM (fun out terminal =>
      t <- is_terminal g terminal ;; _ <- check t ;; add_terminal_action out s_i terminal (fst a)) (snd a) out
  end.
Definition accept_parser (g : grammar) (states : list state_in_progress) : res parser :=
  let out := fold_left (fun out _ => add_parser_state out) states (mk_parser g [] []) in
  forM (zlen states) out (fun out s_i => sip <- vget states s_i ;; foldM (accept_action g s_i) (actions sip) out).

(** accept_parser(build_lalr1_parser(grammar)), src/Omega_h_language.cpp:157 *)
Definition build_parser trace (g : grammar) : res parser :=
  states <- build_lalr1_parser trace g ;; accept_parser g states.

(** src/Omega_h_parser.cpp:52-68 execute_action; the stack with its back first.  pop_back of an empty vector is
    undefined. *)
Fixpoint pop {A} (n : nat) (stack : list A) : res (list A) :=
  match n, stack with O, _ => Ok stack | S n, _ :: stack => pop n stack | S _, [] => UB end.
Definition execute_action (p : parser) (stack : list Z) (a : action) : res (list Z) :=
  match a with
  | Shift n => Ok (n :: stack)
  | Reduce i =>
      prod <- vget (productions (p_grammar p)) i ;;
      stack <- pop (length (rhs prod)) stack ;;
      match stack with
      | [] => Abort
      | top :: _ => n <- cell_get (nonterminal_table p) top (as_nonterminal (p_grammar p) (lhs prod)) ;; Ok (n :: stack)
      end
  end.

(** The actions of a reader: at_shift and at_reduce, virtual members of Reader; None when they throw ParserFail. *)
Record actions_of (V : Type) := mk_actions { at_shift : Z -> list Z -> option V; at_reduce : Z -> list V -> option V }.
Arguments at_shift {V}. Arguments at_reduce {V}.

(** How reading ends: the value returned, or ParserFail thrown; [Reading] when it has not ended after so many steps. *)
Inductive verdict (V : Type) := Read (v : V) | Refused | Reading.
Arguments Read {V}. Arguments Refused {V}. Arguments Reading {V}.

(** Reader::at_token, src/Omega_h_reader.cpp:43-122, for the tokens one after the other (each with its text), the last
    of them the end terminal; one step is one turn of its loop.  value_stack has its back first.  After the accept
    production the rest of read_stream follows, src/Omega_h_reader.cpp:308-315.  Running out of tokens means that the
    end terminal was shifted: Omega_h_fail, src/Omega_h_reader.cpp:308-312. *)
Fixpoint read_tokens {V} (fuel : nat) (p : parser) (acts : actions_of V) (stack : list Z) (value_stack : list V) (tokens : list (Z * list Z))
    : res (verdict V) :=
  match fuel with
  | O => Ok Reading
  | S fuel =>
      match tokens with
      | [] => Abort
      | (lexer_token, lexer_text) :: rest =>
          match stack with
          | [] => UB
          | parser_state :: _ =>
              a <- cell_get (terminal_table p) parser_state lexer_token ;;
              match a with
              | None => Ok Refused
              | Some (Shift n) =>
                  match at_shift acts lexer_token lexer_text with
                  | None => Ok Refused
                  | Some v => stack <- execute_action p stack (Shift n) ;; read_tokens fuel p acts stack (v :: value_stack) rest
                  end
              | Some (Reduce i) =>
                  if i =? get_accept_production (p_grammar p) then
                    _ <- check (zlen value_stack =? 1) ;;
                    match value_stack with v :: _ => Ok (Read v) | [] => UB end
                  else
                    prod <- vget (productions (p_grammar p)) i ;;
                    below <- pop (length (rhs prod)) value_stack ;;
                    match at_reduce acts i (rev (firstn (length (rhs prod)) value_stack)) with
                    | None => Ok Refused
                    | Some v => stack <- execute_action p stack (Reduce i) ;; read_tokens fuel p acts stack (v :: below) tokens
                    end
              end
          end
      end
  end.

(** The tokens of a text followed by the end of the text *)
Definition read_all {V} (fuel : nat) (p : parser) (acts : actions_of V) (tokens : list (Z * list Z)) : res (verdict V) :=
  read_tokens fuel p acts [0] [] (tokens ++ [(get_end_terminal (p_grammar p), [])]).
