(** Model of the computation of the contexts of reductions (Pager's lane tracing), src/Omega_h_build_parser.cpp:195-970 and
    1042-1076.  Sets are increasing lists; printing is left out; the loops run for at most 2^[fuel] turns and UB stands
    for needing more. *)
From Verif Require Import Prelude M_Automaton M_Grammar M_Parser.
Local Open Scope Z_scope.

(** src/Omega_h_set.hpp:8-27 *)
Definition unite_with (a b : list Z) : list Z := fold_left (fun a x => set_insert x a) b a.
Definition subtract_from (a b : list Z) : list Z := filter (fun x => negb (set_count x b)) a.

(** A ParserGraph and add_edge, src/Omega_h_parser_graph.cpp:9-30 *)
Definition make_graph_with_nnodes (n : Z) : list (list Z) := repeat [] (Z.to_nat n).
Definition add_edge (g : list (list Z)) (i j : Z) : res (list (list Z)) := e <- vget g i ;; vset g i (e ++ [j]).
Definition make_transpose (g : list (list Z)) : res (list (list Z)) :=
  forM (zlen g) (make_graph_with_nnodes (zlen g)) (fun t i => es <- vget g i ;; foldM (fun t j => add_edge t j i) es t).

(** src/Omega_h_build_parser.cpp:195-203 *)
Definition get_productions_by_lhs (g : grammar) : res (list (list Z)) :=
  forM (zlen (productions g)) (make_graph_with_nnodes (nsymbols g)) (fun out prod_i =>
    prod <- vget (productions g) prod_i ;; add_edge out (lhs prod) prod_i).
(** src/Omega_h_build_parser.cpp:208-224 *)
Definition get_symbol_graph (g : grammar) (lhs2prods : list (list Z)) : res (list (list Z)) :=
  tabulate (nsymbols g) (fun l =>
    prods <- vget lhs2prods l ;;
    foldM (fun dependees prod_i => prod <- vget (productions g) prod_i ;; Ok (unite_with dependees (rhs prod))) prods []).

(** src/Omega_h_build_parser.cpp:233 *)
Definition FIRST_NULL : Z := -425.
(** src/Omega_h_build_parser.cpp:254-273 *)
Fixpoint get_first_set_of_string (string : list Z) (first_sets : list (list Z)) : res (list Z) :=
  match string with
  | [] => Ok [FIRST_NULL]
  | symbol :: string =>
      f <- vget first_sets symbol ;;
      let heads := filter (fun x => negb (x =? FIRST_NULL)) f in
      if set_count FIRST_NULL f then rest <- get_first_set_of_string string first_sets ;; Ok (unite_with rest heads) else Ok heads
  end.

(** src/Omega_h_build_parser.cpp:305-329: one event *)
Definition first_event (g : grammar) (lhs2prods dependees2dependers : list (list Z)) (st : list (list Z) * list (Z * Z))
    : res ((list (list Z) * list (Z * Z)) + list (list Z)) :=
  let '(first_sets, event_q) := st in
  match event_q with
  | [] => Ok (inr first_sets)
  | (added_symb, dependee) :: event_q =>
      dependee_firsts <- vget first_sets dependee ;;
      if set_count added_symb dependee_firsts then Ok (inl (first_sets, event_q))
      else
        first_sets <- vset first_sets dependee (set_insert added_symb dependee_firsts) ;;
        dependers <- vget dependees2dependers dependee ;;
        event_q <- foldM (fun event_q depender =>
          n <- is_nonterminal g depender ;; _ <- check n ;;
          prods <- vget lhs2prods depender ;;
          depender_firsts <- vget first_sets depender ;;
          foldM (fun event_q prod_i =>
            prod <- vget (productions g) prod_i ;;
            rhs_first_set <- get_first_set_of_string (rhs prod) first_sets ;;
            Ok (event_q ++ map (fun x => (x, depender)) (filter (fun x => negb (set_count x depender_firsts)) rhs_first_set)))
            prods event_q) dependers event_q ;;
        Ok (inl (first_sets, event_q))
  end.
(** src/Omega_h_build_parser.cpp:278-350 *)
Definition compute_first_sets (fuel : nat) (g : grammar) : res (list (list Z)) :=
  lhs2prods <- get_productions_by_lhs g ;;
  event_q <- forM (nsymbols g) [] (fun event_q symbol =>
    t <- is_terminal g symbol ;;
    if (t : bool) then Ok (event_q ++ [(symbol, symbol)])
    else
      prods <- vget lhs2prods symbol ;;
      ps <- mapM (vget (productions g)) prods ;;
      Ok (if existsb (fun p => match rhs p with [] => true | _ => false end) ps then event_q ++ [(FIRST_NULL, symbol)] else event_q)) ;;
  dependers2dependees <- get_symbol_graph g lhs2prods ;;
  dependees2dependers <- make_transpose dependers2dependees ;;
  finish (iterate fuel (first_event g lhs2prods dependees2dependers) (make_graph_with_nnodes (nsymbols g), event_q)).

(** src/Omega_h_build_parser.cpp:352-369: the pairs of a state and a position among its configs, numbered, and the
    numbers of each state *)
Definition form_state_configs (states : list state_in_progress) : list (Z * Z) :=
  List.concat (map (fun '(i, s) => map (fun j => (i, j)) (zrange (zlen (configs s)))) (combine (zrange (zlen states)) states)).
Definition form_states_to_state_configs (scs : list (Z * Z)) (states : list state_in_progress) : res (list (list Z)) :=
  forM (zlen scs) (make_graph_with_nnodes (zlen states)) (fun out i => sc <- vget scs i ;; add_edge out (fst sc) i).

Section Lanes.
Variable g : grammar.
Variable cs : list config.
Variable states : list state_in_progress.
Variable scs : list (Z * Z).
Variable states2scs : list (list Z).
Variable first_sets : list (list Z).

(** src/Omega_h_build_parser.cpp:461-488; the second loop does not look at the dot of config2 *)
Definition make_immediate_predecessor_graph : res (list (list Z)) :=
  forM (zlen states) (make_graph_with_nnodes (zlen scs)) (fun out s_i =>
    state <- vget states s_i ;;
    forM (zlen (configs state)) out (fun out cis_i =>
      config_i <- vget (configs state) cis_i ;;
      a <- after_dot cs g config_i ;;
      match a with
      | None => Ok out
      | Some s =>
          t <- is_terminal g s ;;
          if (t : bool) then Ok out
          else forM (zlen (configs state)) out (fun out cis_j =>
            config_j <- vget (configs state) cis_j ;;
            config2 <- vget cs config_j ;;
            prod2 <- vget (productions g) (fst config2) ;;
            if lhs prod2 =? s then
              sc_i <- cell_get states2scs s_i cis_i ;;
              sc_j <- cell_get states2scs s_i cis_j ;;
              add_edge out sc_j sc_i
            else Ok out)
      end)).

(** src/Omega_h_build_parser.cpp:490-523 *)
Definition find_transition_predecessors : res (list (list Z)) :=
  forM (zlen states) (make_graph_with_nnodes (zlen scs)) (fun out state_i =>
    state <- vget states state_i ;;
    foldM (fun out a =>
      match a with
      | (Reduce _, _) => Ok out
      | (Shift state_j, context) =>
          _ <- check (zlen context =? 1) ;;
          symbol <- zget context 0 ;;
          state2 <- vget states state_j ;;
          forM (zlen (configs state)) out (fun out cis_i =>
            config_i <- vget (configs state) cis_i ;;
            config <- vget cs config_i ;;
            forM (zlen (configs state2)) out (fun out cis_j =>
              config_j <- vget (configs state2) cis_j ;;
              config2 <- vget cs config_j ;;
              if (fst config =? fst config2) && (snd config + 1 =? snd config2) then
                prod <- vget (productions g) (fst config) ;;
                rhs_symbol <- vget (rhs prod) (snd config) ;;
                if rhs_symbol =? symbol then
                  sc_i <- cell_get states2scs state_i cis_i ;;
                  sc_j <- cell_get states2scs state_j cis_j ;;
                  add_edge out sc_j sc_i
                else Ok out
              else Ok out))
      end) (actions state) out).

(** src/Omega_h_build_parser.cpp:525-556; the search visits every number at most once *)
Fixpoint originators_loop (fuel : nat) (ipg tpg : list (list Z)) (tpq tps originators : list Z) : res (list Z) :=
  match tpq with
  | [] => Ok originators
  | tpp :: tpq =>
      match fuel with
      | O => UB
      | S fuel =>
          tpcs <- vget tpg tpp ;;
          let '(tps, tpq) := fold_left close_visit tpcs (tps, tpq) in
          ips <- vget ipg tpp ;;
          originators_loop fuel ipg tpg tpq tps (unite_with originators ips)
      end
  end.
Definition make_originator_graph : res (list (list Z)) :=
  ipg <- make_immediate_predecessor_graph ;;
  tpg <- find_transition_predecessors ;;
  tabulate (zlen scs) (fun sc_i => originators_loop (length scs) ipg tpg [sc_i] [sc_i] []).

(** src/Omega_h_build_parser.cpp:558-574 *)
Definition get_follow_string (sc_addr : Z) : res (list Z) :=
  sc <- vget scs sc_addr ;;
  state <- vget states (fst sc) ;;
  config_i <- vget (configs state) (snd sc) ;;
  config <- vget cs config_i ;;
  prod <- vget (productions g) (fst config) ;;
  mapM (vget (rhs prod)) (zfromto (snd config + 1) (zlen (rhs prod))).

(** src/Omega_h_build_parser.cpp:585-595 *)
Definition has_non_null_terminal_descendant (first_set : list Z) : bool :=
  match first_set with [] => false | [x] => negb (x =? FIRST_NULL) | _ => true end.
Definition get_contexts (first_set : list Z) : list Z := filter (fun x => negb (x =? FIRST_NULL)) first_set.

(** src/Omega_h_build_parser.cpp:597-598 *)
Definition MARKER : Z := -433.
Definition ZERO : Z := -100.

(** The position of the first occurrence, src/Omega_h_build_parser.cpp:616-619 *)
Fixpoint find_in (x : Z) (l : list Z) : option Z :=
  match l with [] => None | y :: l => if y =? x then Some 0 else option_map (Z.add 1) (find_in x l) end.
(** src/Omega_h_build_parser.cpp:612-634; vectors have their front first *)
Definition move_markers (lane : list Z) (zeta_prime_addr zeta_pointer : Z) (tests_failed : bool) : res (list Z) :=
  match find_in zeta_prime_addr lane with
  | None => Abort
  | Some loc =>
      '(lane, r) <- foldM (fun '(lane, r) i =>
        v <- vget lane i ;;
        if v =? MARKER then lane <- vset lane i ZERO ;; Ok (lane, r + 1) else Ok (lane, r)) (zfromto (loc + 1) zeta_pointer) (lane, 0) ;;
      let markers := repeat MARKER (Z.to_nat r) in
      Ok (if tests_failed then removelast lane ++ markers ++ [last lane 0] else lane ++ markers)
  end.

(** src/Omega_h_build_parser.cpp:638-683: r goes from zeta_pointer down to 0 *)
Fixpoint add_contexts (positions : list Z) (lane generated : list Z) (contexts : list (list Z)) : res (list (list Z)) :=
  match positions with
  | [] => Ok contexts
  | r :: positions =>
      match generated with
      | [] => Ok contexts
      | _ =>
          v_r <- vget lane r ;;
          if v_r <? 0 then add_contexts positions lane generated contexts
          else
            c <- vget contexts v_r ;;
            let generated := subtract_from generated c in
            contexts <- vset contexts v_r (unite_with c generated) ;;
            add_contexts positions lane generated contexts
      end
  end.
Definition context_adding_routine (lane : list Z) (zeta_pointer : Z) (generated : list Z) (contexts : list (list Z)) : res (list (list Z)) :=
  add_contexts (rev (zrange (zeta_pointer + 1))) lane generated contexts.

(** The variables of compute_context_set, src/Omega_h_build_parser.cpp:763-798, and the parameters it changes.  The
    stack has its back first. *)
Record tracing := mk_tracing {
  contexts : list (list Z); complete : list bool; stack : list Z; lane : list Z; in_lane : list bool;
  tests_failed : bool; num_originators_failed : Z; first_originator_failed : Z }.
Definition with_contexts t c := mk_tracing c (complete t) (stack t) (lane t) (in_lane t) (tests_failed t) (num_originators_failed t) (first_originator_failed t).
Definition with_lane t l := mk_tracing (contexts t) (complete t) (stack t) l (in_lane t) (tests_failed t) (num_originators_failed t) (first_originator_failed t).

(** src/Omega_h_build_parser.cpp:685-736 *)
Definition deal_with_tests_failed (zeta_addr zeta_prime_addr : Z) (t : tracing) : res tracing :=
  let n := num_originators_failed t in
  if n =? 0 then
    il <- vset (in_lane t) zeta_prime_addr true ;;
    Ok (mk_tracing (contexts t) (complete t) (stack t) (lane t ++ [zeta_prime_addr]) il true (n + 1) zeta_prime_addr)
  else if n =? 1 then
    let zeta_double_prime_addr := first_originator_failed t in
    top <- vget (lane t) (zlen (lane t) - 1) ;;
    _ <- check (top =? zeta_double_prime_addr) ;;
    below <- vget (lane t) (zlen (lane t) - 2) ;;
    _ <- check (below =? zeta_addr) ;;
    Ok (mk_tracing (contexts t) (complete t) (zeta_prime_addr :: MARKER :: stack t)
          (removelast (lane t) ++ [MARKER; zeta_double_prime_addr]) (in_lane t) (tests_failed t) (n + 1) (first_originator_failed t))
  else
    Ok (mk_tracing (contexts t) (complete t) (zeta_prime_addr :: stack t) (lane t) (in_lane t) (tests_failed t) (n + 1) (first_originator_failed t)).

(** src/Omega_h_build_parser.cpp:738-759 *)
Definition heuristic_propagation (tau_addr : Z) (t : tracing) : res tracing :=
  tau <- vget scs tau_addr ;;
  state <- vget states (fst tau) ;;
  config_i <- vget (configs state) (snd tau) ;;
  config <- vget cs config_i ;;
  if negb (snd config =? 0) then Ok t
  else
    prod <- vget (productions g) (fst config) ;;
    forM (zlen (configs state)) t (fun t cis_j =>
      config_j <- vget (configs state) cis_j ;;
      if config_j =? config_i then Ok t
      else
        config2 <- vget cs config_j ;;
        if negb (snd config2 =? 0) then Ok t
        else
          prod2 <- vget (productions g) (fst config2) ;;
          if negb (lhs prod =? lhs prod2) then Ok t
          else
            tau_prime_addr <- cell_get states2scs (fst tau) cis_j ;;
            c <- vget (contexts t) tau_addr ;;
            cx <- vset (contexts t) tau_prime_addr c ;;
            cp <- vset (complete t) tau_prime_addr true ;;
            Ok (mk_tracing cx cp (stack t) (lane t) (in_lane t) (tests_failed t) (num_originators_failed t) (first_originator_failed t))).

(** One originator, src/Omega_h_build_parser.cpp:801-891 *)
Definition one_originator (zeta_addr zeta_pointer : Z) (t : tracing) (zeta_prime_addr : Z) : res tracing :=
  gamma <- get_follow_string zeta_prime_addr ;;
  gamma_first <- get_first_set_of_string gamma first_sets ;;
  done <- vget (complete t) zeta_prime_addr ;;
  if has_non_null_terminal_descendant gamma_first then
    let generated := get_contexts gamma_first in
    if set_count FIRST_NULL gamma_first then
      if (done : bool) then
        c <- vget (contexts t) zeta_prime_addr ;;
        cx <- context_adding_routine (lane t) zeta_pointer (unite_with generated c) (contexts t) ;; Ok (with_contexts t cx)
      else
        inl <- vget (in_lane t) zeta_prime_addr ;;
        if (inl : bool) then Abort   (* grammar is ambiguous *)
        else
          cx <- context_adding_routine (lane t) zeta_pointer generated (contexts t) ;;
          deal_with_tests_failed zeta_addr zeta_prime_addr (with_contexts t cx)
    else
      cx <- context_adding_routine (lane t) zeta_pointer generated (contexts t) ;; Ok (with_contexts t cx)
  else
    if (done : bool) then
      c <- vget (contexts t) zeta_prime_addr ;;
      cx <- context_adding_routine (lane t) zeta_pointer c (contexts t) ;; Ok (with_contexts t cx)
    else
      inl <- vget (in_lane t) zeta_prime_addr ;;
      if (inl : bool) then
        ln <- move_markers (lane t) zeta_prime_addr zeta_pointer (tests_failed t) ;;
        c <- vget (contexts t) zeta_prime_addr ;;
        cx <- context_adding_routine ln zeta_pointer c (contexts t) ;; Ok (with_contexts (with_lane t ln) cx)
      else deal_with_tests_failed zeta_addr zeta_prime_addr t.

(** The stack popping loop, src/Omega_h_build_parser.cpp:912-943: the stack that remains and what is pushed onto the lane,
    if anything *)
Fixpoint pop_stack (complete : list bool) (stack : list Z) : res (list Z * option Z) :=
  match stack with
  | [] => Abort
  | top :: stack =>
      if top =? MARKER then Ok (stack, None)
      else done <- vget complete top ;; if (done : bool) then pop_stack complete stack else Ok (stack, Some top)
  end.

(** The lane popping loop, src/Omega_h_build_parser.cpp:901-968: true when the program ends.  Every turn but the last takes
    one entry off the lane. *)
Fixpoint pop_lane (fuel : nat) (zeta_j_addr : Z) (t : tracing) : res (tracing * bool) :=
  match fuel with
  | O => Abort   (* the lane is empty *)
  | S fuel =>
      top <- vget (lane t) (zlen (lane t) - 1) ;;
      if top =? MARKER then
        '(st, push) <- pop_stack (complete t) (stack t) ;;
        match push with
        | None => pop_lane fuel zeta_j_addr (mk_tracing (contexts t) (complete t) st (removelast (lane t)) (in_lane t) (tests_failed t) (num_originators_failed t) (first_originator_failed t))
        | Some addr =>
            il <- vset (in_lane t) addr true ;;
            Ok (mk_tracing (contexts t) (complete t) st (lane t ++ [addr]) il (tests_failed t) (num_originators_failed t) (first_originator_failed t), false)
        end
      else if top =? ZERO then pop_lane fuel zeta_j_addr (with_lane t (removelast (lane t)))
      else
        il <- vset (in_lane t) top false ;;
        cp <- vset (complete t) top true ;;
        t <- heuristic_propagation top (mk_tracing (contexts t) cp (stack t) (lane t) il (tests_failed t) (num_originators_failed t) (first_originator_failed t)) ;;
        if (zlen (lane t) =? 1) && (top =? zeta_j_addr) then Ok (t, true)
        else pop_lane fuel zeta_j_addr (with_lane t (removelast (lane t)))
  end.

(** One turn of the outer loop, src/Omega_h_build_parser.cpp:789-969 *)
Definition trace_turn (originator_graph : list (list Z)) (zeta_j_addr : Z) (t : tracing) : res (tracing + (list (list Z) * list bool)) :=
  let zeta_pointer := zlen (lane t) - 1 in
  _ <- check (negb (zlen (lane t) =? 0)) ;;
  zeta_addr <- vget (lane t) zeta_pointer ;;
  os <- vget originator_graph zeta_addr ;;
  t <- foldM (one_originator zeta_addr zeta_pointer) os
         (mk_tracing (contexts t) (complete t) (stack t) (lane t) (in_lane t) (tests_failed t) 0 (-1)) ;;
  if tests_failed t then
    Ok (inl (mk_tracing (contexts t) (complete t) (stack t) (lane t) (in_lane t) false (num_originators_failed t) (first_originator_failed t)))
  else
    '(t, ended) <- pop_lane (length (lane t)) zeta_j_addr t ;;
    Ok (if (ended : bool) then inr (contexts t, complete t) else inl t).

(** src/Omega_h_build_parser.cpp:763-970 compute_context_set *)
Definition compute_context_set (fuel : nat) (originator_graph : list (list Z)) (cc : list (list Z) * list bool) (zeta_j_addr : Z)
    : res (list (list Z) * list bool) :=
  let '(contexts, complete) := cc in
  done <- vget complete zeta_j_addr ;;
  if (done : bool) then Ok (contexts, complete)
  else
    il <- vset (repeat false (length scs)) zeta_j_addr true ;;
    finish (iterate fuel (trace_turn originator_graph zeta_j_addr) (mk_tracing contexts complete [] [zeta_j_addr] il false 0 (-1))).
End Lanes.

(** src/Omega_h_build_parser.cpp:1034-1035 and 1043-1076: what build_lalr1_parser does between its two checks of adequacy *)
Definition lane_tracing (fuel : nat) (g : grammar) (cs : list config) (states : list state_in_progress) (adequate : list bool) : res contexts_of_states :=
  let scs := form_state_configs states in
  states2scs <- form_states_to_state_configs scs states ;;
  cc <- foldM (fun '(contexts, complete) sc_i =>
    sc <- vget scs sc_i ;;
    state <- vget states (fst sc) ;;
    config_i <- vget (configs state) (snd sc) ;;
    config <- vget cs config_i ;;
    if fst config =? get_accept_production g then
      cp <- vset complete sc_i true ;;
      c <- vget contexts sc_i ;;
      cx <- vset contexts sc_i (set_insert (get_end_terminal g) c) ;; Ok (cx, cp)
    else Ok (contexts, complete)) (zrange (zlen scs)) (repeat [] (length scs), repeat false (length scs)) ;;
  og <- make_originator_graph g cs states scs states2scs ;;
  first_sets <- compute_first_sets fuel g ;;
  '(contexts, complete) <- foldM (fun cc s_i =>
    a <- vget adequate s_i ;;
    if (a : bool) then Ok cc
    else
      state <- vget states s_i ;;
      foldM (fun cc cis_i =>
        config_i <- vget (configs state) cis_i ;;
        config <- vget cs config_i ;;
        prod <- vget (productions g) (fst config) ;;
        if negb (snd config =? zlen (rhs prod)) then Ok cc
        else zeta_j_addr <- cell_get states2scs s_i cis_i ;; compute_context_set g cs states scs states2scs first_sets fuel og cc zeta_j_addr)
        (zrange (zlen (configs state))) cc) (zrange (zlen states)) cc ;;
  mapM (mapM (fun sc_i => done <- vget complete sc_i ;; c <- vget contexts sc_i ;; Ok (if (done : bool) then Some c else None))) states2scs.

(** accept_parser(build_lalr1_parser(grammar)) *)
Definition build_lalr_parser (fuel : nat) (g : grammar) : res parser := build_parser (lane_tracing fuel) g.
