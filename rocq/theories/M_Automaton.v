(** Model of src/Omega_h_table.hpp, src/Omega_h_finite_automaton.{hpp,cpp} and of the semantic actions of
    src/Omega_h_regex.cpp: the tables a lexer is made of, and how they are built from regular expressions.
    Simplifications: int never overflows (numbers of states and columns are far below 2^31); a Table is a list of
    rows instead of one flat vector (the flat index is row * ncols + col, src/Omega_h_table.hpp:42-49); std::set<int>
    is a strictly increasing list; std::map keyed by sets is an association list searched by set equality. *)
From Verif Require Import Prelude.
Local Open Scope Z_scope.

(** at(std::vector&, int), src/Omega_h_std_vector.hpp:17-32: both bounds are OMEGA_H_CHECKed. *)
Definition vget {A} (l : list A) (i : Z) : res A := _ <- check ((0 <=? i) && (i <? zlen l)) ;; zget l i.
Definition vset {A} (l : list A) (i : Z) (v : A) : res (list A) := _ <- check ((0 <=? i) && (i <? zlen l)) ;; zset l i v.

(** struct FiniteAutomaton, src/Omega_h_finite_automaton.hpp:20-43, with struct Table<int>,
    src/Omega_h_table.hpp:9-20. *)
Record automaton := FA { table : list (list Z); ncols : Z; accepted_tokens : list Z; is_deterministic : bool }.

(** src/Omega_h_finite_automaton.cpp:15-20 and src/Omega_h_table.hpp:16-19 (the CHECK); reserve has no effect. *)
Definition new_automaton (nsymbols : Z) (det : bool) : res automaton :=
  let n := nsymbols + (if det then 0 else 2) in
  _ <- check (0 <=? n) ;; Ok (FA [] n [] det).

(** src/Omega_h_finite_automaton.cpp:22, src/Omega_h_table.hpp:22-27 *)
Definition get_nstates (fa : automaton) : res Z := _ <- check (0 <? ncols fa) ;; Ok (zlen (table fa)).
(** src/Omega_h_finite_automaton.cpp:24-26 *)
Definition get_nsymbols (fa : automaton) : Z := ncols fa - (if is_deterministic fa then 0 else 2).
(** src/Omega_h_finite_automaton.cpp:30-38 *)
Definition get_epsilon0 (fa : automaton) : res Z := _ <- check (negb (is_deterministic fa)) ;; Ok (ncols fa - 2).
Definition get_epsilon1 (fa : automaton) : res Z := _ <- check (negb (is_deterministic fa)) ;; Ok (ncols fa - 1).

(** at(Table&, row, col), src/Omega_h_table.hpp:40-56 *)
Definition tget (fa : automaton) (row col : Z) : res Z :=
  _ <- check ((0 <=? col) && (col <? ncols fa)) ;;
  n <- get_nstates fa ;;
  _ <- check ((0 <=? row) && (row <? n)) ;;
  r <- zget (table fa) row ;; zget r col.
Definition tset (fa : automaton) (row col v : Z) : res automaton :=
  _ <- check ((0 <=? col) && (col <? ncols fa)) ;;
  n <- get_nstates fa ;;
  _ <- check ((0 <=? row) && (row <? n)) ;;
  r <- zget (table fa) row ;; r' <- zset r col v ;; t' <- zset (table fa) row r' ;;
  Ok (FA t' (ncols fa) (accepted_tokens fa) (is_deterministic fa)).

(** src/Omega_h_finite_automaton.cpp:40-48; the row the loop fills is written at once. *)
Definition add_state (fa : automaton) : res (automaton * Z) :=
  state <- get_nstates fa ;;
  Ok (FA (table fa ++ [repeat (-1) (Z.to_nat (ncols fa))]) (ncols fa) (accepted_tokens fa ++ [-1]) (is_deterministic fa), state).

(** src/Omega_h_finite_automaton.cpp:50-59 *)
Definition add_transition (fa : automaton) (from_state at_symbol to_state : Z) : res automaton :=
  _ <- check (0 <=? to_state) ;;
  n <- get_nstates fa ;;
  _ <- check (to_state <? n) ;;
  _ <- check (0 <=? at_symbol) ;;
  _ <- check (at_symbol <? ncols fa) ;;
  old <- tget fa from_state at_symbol ;;
  _ <- check (old =? -1) ;;
  tset fa from_state at_symbol to_state.

(** src/Omega_h_finite_automaton.cpp:61-68 *)
Definition add_accept (fa : automaton) (state token : Z) : res automaton :=
  _ <- check (0 <=? token) ;;
  toks <- vset (accepted_tokens fa) state token ;;
  Ok (FA (table fa) (ncols fa) toks (is_deterministic fa)).
Definition remove_accept (fa : automaton) (state : Z) : res automaton :=
  toks <- vset (accepted_tokens fa) state (-1) ;;
  Ok (FA (table fa) (ncols fa) toks (is_deterministic fa)).

(** src/Omega_h_finite_automaton.cpp:70-81 *)
Definition step (fa : automaton) (state symbol : Z) : res Z :=
  _ <- check (0 <=? state) ;;
  n <- get_nstates fa ;;
  _ <- check (state <? n) ;;
  _ <- check (0 <=? symbol) ;;
  _ <- check (symbol <? ncols fa) ;;
  tget fa state symbol.
Definition accepts (fa : automaton) (state : Z) : res Z := vget (accepted_tokens fa) state.

(** src/Omega_h_finite_automaton.cpp:85-104 *)
Definition append_states (fa other : automaton) : res automaton :=
  _ <- check (get_nsymbols other =? get_nsymbols fa) ;;
  _ <- check (is_deterministic other || negb (is_deterministic fa)) ;;
  offset <- get_nstates fa ;;
  m <- get_nstates other ;;
  fa <- forM m fa (fun fa other_state =>
    '(fa, my_state) <- add_state fa ;;
    token <- accepts other other_state ;;
    if 0 <=? token then add_accept fa my_state token else Ok fa) ;;
  forM m fa (fun fa other_state =>
    let my_state := other_state + offset in
    forM (ncols other) fa (fun fa symbol =>
      other_next <- step other other_state symbol ;;
      if other_next <? 0 then Ok fa
      else add_transition fa my_state symbol (other_next + offset))).

(** src/Omega_h_finite_automaton.cpp:111-121; accepted lists the set in increasing order. *)
Definition make_set_nfa (nsymbols : Z) (accepted : list Z) (token : Z) : res automaton :=
  out <- new_automaton nsymbols true ;;
  '(out, start_state) <- add_state out ;;
  '(out, accept_state) <- add_state out ;;
  out <- foldM (fun out i => add_transition out start_state i accept_state) accepted out ;;
  add_accept out accept_state token.

(** src/Omega_h_finite_automaton.cpp:123-136 *)
Definition make_range_nfa (nsymbols range_start range_end token : Z) : res automaton :=
  _ <- check (0 <=? range_start) ;;
  _ <- check (range_start <=? range_end) ;;
  _ <- check (range_end <=? nsymbols) ;;
  out <- new_automaton nsymbols true ;;
  '(out, start_state) <- add_state out ;;
  '(out, accept_state) <- add_state out ;;
  out <- foldM (fun out i => add_transition out start_state i accept_state) (zfromto range_start (range_end + 1)) out ;;
  add_accept out accept_state token.

(** src/Omega_h_finite_automaton.cpp:106-109 *)
Definition make_single_nfa (nsymbols symbol token : Z) : res automaton := make_range_nfa nsymbols symbol symbol token.

(** src/Omega_h_finite_automaton.cpp:138-152 *)
Definition unite (a b : automaton) : res automaton :=
  out <- new_automaton (get_nsymbols a) false ;;
  '(out, start_state) <- add_state out ;;
  a_offset <- get_nstates out ;;
  out <- append_states out a ;;
  b_offset <- get_nstates out ;;
  out <- append_states out b ;;
  epsilon0 <- get_epsilon0 out ;;
  epsilon1 <- get_epsilon1 out ;;
  out <- add_transition out start_state epsilon0 a_offset ;;
  add_transition out start_state epsilon1 b_offset.

(** src/Omega_h_finite_automaton.cpp:154-174 *)
Definition concat (a b : automaton) (token : Z) : res automaton :=
  out <- new_automaton (get_nsymbols a) false ;;
  out <- append_states out a ;;
  b_offset <- get_nstates out ;;
  out <- append_states out b ;;
  epsilon0 <- get_epsilon0 out ;;
  na <- get_nstates a ;;
  out <- forM na out (fun out i =>
    t <- accepts a i ;;
    if t =? -1 then Ok out
    else out <- add_transition out i epsilon0 b_offset ;; remove_accept out i) ;;
  nb <- get_nstates b ;;
  forM nb out (fun out i =>
    t <- accepts b i ;;
    if t =? -1 then Ok out else add_accept out (i + b_offset) token).

(** src/Omega_h_finite_automaton.cpp:176-193 *)
Definition plus (a : automaton) (token : Z) : res automaton :=
  out <- new_automaton (get_nsymbols a) false ;;
  out <- append_states out a ;;
  '(out, new_accept_state) <- add_state out ;;
  out <- add_accept out new_accept_state token ;;
  epsilon0 <- get_epsilon0 out ;;
  epsilon1 <- get_epsilon1 out ;;
  na <- get_nstates a ;;
  forM na out (fun out i =>
    t <- accepts a i ;;
    if t =? -1 then Ok out
    else out <- add_transition out i epsilon0 new_accept_state ;;
         out <- add_transition out i epsilon1 0 ;;
         remove_accept out i).

(** src/Omega_h_finite_automaton.cpp:195-217 *)
Definition maybe (a : automaton) (token : Z) : res automaton :=
  out <- new_automaton (get_nsymbols a) false ;;
  '(out, new_start_state) <- add_state out ;;
  offset <- get_nstates out ;;
  out <- append_states out a ;;
  '(out, new_accept_state) <- add_state out ;;
  epsilon0 <- get_epsilon0 out ;;
  epsilon1 <- get_epsilon1 out ;;
  out <- add_transition out new_start_state epsilon1 offset ;;
  na <- get_nstates a ;;
  '(out, last) <- forM na (out, new_start_state) (fun '(out, last) i =>
    t <- accepts a i ;;
    if t =? -1 then Ok (out, last)
    else out <- add_transition out last epsilon0 (i + offset) ;;
         out <- remove_accept out (i + offset) ;;
         Ok (out, i + offset)) ;;
  out <- add_transition out last epsilon0 new_accept_state ;;
  add_accept out new_accept_state token.

(** src/Omega_h_finite_automaton.cpp:219-221 *)
Definition star (a : automaton) (token : Z) : res automaton := p <- plus a token ;; maybe p token.

(** std::set<int>: insert and count *)
Fixpoint set_insert (x : Z) (s : list Z) : list Z :=
  match s with
  | [] => [x]
  | y :: t => if x <? y then x :: s else if x =? y then s else y :: set_insert x t
  end.
Definition set_count (x : Z) (s : list Z) : bool := existsb (Z.eqb x) s.

(** src/Omega_h_finite_automaton.cpp:225-233 *)
Definition step_set (ss : list Z) (symbol : Z) (fa : automaton) : res (list Z) :=
  foldM (fun next_ss state =>
    next_state <- step fa state symbol ;;
    Ok (if next_state =? -1 then next_ss else set_insert next_state next_ss)) ss [].

(** The body of the loop over the two epsilon columns, src/Omega_h_finite_automaton.cpp:245-252; the queue is a list
    with its front first. *)
Definition closure_visit (fa : automaton) (state : Z) (sq : list Z * list Z) (epsilon : Z) : res (list Z * list Z) :=
  let '(ss, q) := sq in
  next_state <- step fa state epsilon ;;
  if next_state =? -1 then Ok (ss, q)
  else if set_count next_state ss then Ok (ss, q)
  else Ok (set_insert next_state ss, q ++ [next_state]).

(** The while loop of src/Omega_h_finite_automaton.cpp:242-253; running out of fuel is UB and the theorems show it
    does not happen (every state enters the queue at most once). *)
Fixpoint closure_loop (fuel : nat) (fa : automaton) (epsilon0 epsilon1 : Z) (ss q : list Z) : res (list Z) :=
  match q with
  | [] => Ok ss
  | state :: q =>
      match fuel with
      | O => UB
      | S fuel =>
          '(ss, q) <- foldM (closure_visit fa state) (zfromto epsilon0 (epsilon1 + 1)) (ss, q) ;;
          closure_loop fuel fa epsilon0 epsilon1 ss q
      end
  end.
(** src/Omega_h_finite_automaton.cpp:237-255 *)
Definition get_epsilon_closure (ss : list Z) (fa : automaton) : res (list Z) :=
  epsilon0 <- get_epsilon0 fa ;;
  epsilon1 <- get_epsilon1 fa ;;
  closure_loop (length (table fa)) fa epsilon0 epsilon1 ss ss.

(** ssp2s.find: the state of a set already met, src/Omega_h_finite_automaton.cpp:294 with the comparator of
    :259-263. *)
Fixpoint find_set (m : list (list Z * Z)) (ss : list Z) : option Z :=
  match m with
  | [] => None
  | (k, v) :: m => if list_eq_dec Z.eq_dec k ss then Some v else find_set m ss
  end.

(** State of the powerset loop: out, ssp2s, ssupv. *)
Definition powerset_state : Type := automaton * list (list Z * Z) * list (list Z).

(** src/Omega_h_finite_automaton.cpp:289-303: one symbol. *)
Definition powerset_symbol (nfa : automaton) (state : Z) (ss : list Z) (st : powerset_state) (symbol : Z)
    : res powerset_state :=
  let '(out, ssp2s, ssupv) := st in
  next_ss <- step_set ss symbol nfa ;;
  if match next_ss with [] => true | _ => false end then Ok st
  else
    next_ss <- get_epsilon_closure next_ss nfa ;;
    match find_set ssp2s next_ss with
    | None =>
        '(out, next_state) <- add_state out ;;
        out <- add_transition out state symbol next_state ;;
        Ok (out, ssp2s ++ [(next_ss, next_state)], ssupv ++ [next_ss])
    | Some next_state =>
        out <- add_transition out state symbol next_state ;;
        Ok (out, ssp2s, ssupv)
    end.

(** src/Omega_h_finite_automaton.cpp:304-311 *)
Definition min_accepted (nfa : automaton) (ss : list Z) : res Z :=
  foldM (fun m nfa_state =>
    nfa_token <- accepts nfa nfa_state ;;
    if nfa_token =? -1 then Ok m
    else Ok (if (m =? -1) || (nfa_token <? m) then nfa_token else m)) ss (-1).

(** One iteration of the while loop, src/Omega_h_finite_automaton.cpp:285-313: the loop ends when front reaches the
    number of sets. *)
Definition powerset_iteration (nfa : automaton) (st : powerset_state * Z) : res ((powerset_state * Z) + automaton) :=
  let '((out, ssp2s, ssupv), front) := st in
  if front <? zlen ssupv then
    ss <- vget ssupv front ;;
    '(out, ssp2s, ssupv) <- forM (get_nsymbols nfa) (out, ssp2s, ssupv) (powerset_symbol nfa front ss) ;;
    m <- min_accepted nfa ss ;;
    out <- (if m =? -1 then Ok out else add_accept out front m) ;;
    Ok (inl ((out, ssp2s, ssupv), front + 1))
  else Ok (inr out).

(** A loop run for at most 2^k iterations. *)
Fixpoint iterate {S R} (k : nat) (body : S -> res (S + R)) (s : S) : res (S + R) :=
  match k with
  | O => body s
  | Datatypes.S k =>
      r <- iterate k body s ;;
      match r with inl s' => iterate k body s' | inr x => Ok (inr x) end
  end.
Definition finish {S R} (r : res (S + R)) : res R :=
  x <- r ;; match x with inr y => Ok y | inl _ => UB end.

(** src/Omega_h_finite_automaton.cpp:272-315; the loop is given 2^(nstates+1) iterations and not ending within them
    is UB, which the theorems exclude (there are at most 2^nstates sets). *)
Definition make_deterministic (nfa : automaton) : res automaton :=
  if is_deterministic nfa then Ok nfa
  else
    out <- new_automaton (get_nsymbols nfa) true ;;
    start_ss <- get_epsilon_closure [0] nfa ;;
    '(out, s0) <- add_state out ;;
    finish (iterate (S (length (table nfa))) (powerset_iteration nfa) ((out, [(start_ss, s0)], [start_ss]), 0)).

(** Neither of two states is less than the other, src/Omega_h_finite_automaton.cpp:317-331. *)
Definition same_state (fa : automaton) (a b : Z) : res bool :=
  aa <- accepts fa a ;;
  ab <- accepts fa b ;;
  if negb (aa =? ab) then Ok false
  else foldM (fun (same : bool) symbol =>
         ea <- tget fa a symbol ;; eb <- tget fa b symbol ;; Ok (same && (ea =? eb))) (zrange (ncols fa)) true.
(** std::map lookup in sr2ss: keys in insertion order. *)
Fixpoint find_state (fa : automaton) (m : list (Z * Z)) (state : Z) : res (option Z) :=
  match m with
  | [] => Ok None
  | (k, v) :: m => b <- same_state fa k state ;; if (b : bool) then Ok (Some v) else find_state fa m state
  end.

(** src/Omega_h_finite_automaton.cpp:335-367 *)
Definition simplify_once (fa : automaton) : res automaton :=
  n <- get_nstates fa ;;
  '(sr2ss, nsimple) <- forM n ([], 0) (fun '(m, nsimple) state =>
    f <- find_state fa m state ;;
    match f with
    | Some _ => Ok (m, nsimple)
    | None => Ok (m ++ [(state, nsimple)], nsimple + 1)
    end) ;;
  out <- new_automaton (get_nsymbols fa) (is_deterministic fa) ;;
  out <- forM nsimple out (fun out _ => '(out, _) <- add_state out ;; Ok out) ;;
  '(out, _) <- forM n (out, repeat false (Z.to_nat nsimple)) (fun '(out, did_simple) state =>
    f <- find_state fa sr2ss state ;;
    match f with
    | None => Abort
    | Some simple =>
        did <- vget did_simple simple ;;
        if (did : bool) then Ok (out, did_simple)
        else
          out <- forM (ncols fa) out (fun out symbol =>
            next_state <- step fa state symbol ;;
            if next_state =? -1 then Ok out
            else
              g <- find_state fa sr2ss next_state ;;
              match g with
              | None => Abort
              | Some next_simple => add_transition out simple symbol next_simple
              end) ;;
          token <- accepts fa state ;;
          out <- (if token =? -1 then Ok out else add_accept out simple token) ;;
          did_simple <- vset did_simple simple true ;;
          Ok (out, did_simple)
    end) ;;
  Ok out.

(** src/Omega_h_finite_automaton.cpp:369-382: simplify until the number of states stops falling; the message printed
    when that takes more than two rounds is not modelled.  Running out of fuel is UB, which the theorems exclude. *)
Fixpoint simplify_loop (fuel : nat) (out : automaton) (nstates : Z) : res automaton :=
  match fuel with
  | O => UB
  | S fuel =>
      out <- simplify_once out ;;
      nstates_new <- get_nstates out ;;
      if nstates_new <? nstates then simplify_loop fuel out nstates_new else Ok out
  end.
Definition simplify (fa : automaton) : res automaton :=
  n <- get_nstates fa ;; simplify_loop (S (length (table fa))) fa n.

(* ------------------------------------------------------------------ *)
(** Characters *)

(** src/Omega_h_chartab.hpp:9, src/Omega_h_chartab.cpp:8-16 *)
Definition NCHARS : Z := 98.
Definition chartab : list Z :=
  [-1; -1; -1; -1; -1; -1; -1; -1; -1;
    0; 1; -1; -1; 2; -1; -1; -1; -1; -1; -1; -1; -1; -1; -1; -1; -1; -1; -1; -1;
    -1; -1; -1; 3; 66; 67; 68; 69; 70; 71; 72; 73; 74; 75; 76; 77; 78; 79; 80;
    56; 57; 58; 59; 60; 61; 62; 63; 64; 65; 81; 82; 83; 84; 85; 86; 87; 30; 31;
    32; 33; 34; 35; 36; 37; 38; 39; 40; 41; 42; 43; 44; 45; 46; 47; 48; 49; 50;
    51; 52; 53; 54; 55; 88; 89; 90; 91; 92; 93; 4; 5; 6; 7; 8; 9; 10; 11; 12;
    13; 14; 15; 16; 17; 18; 19; 20; 21; 22; 23; 24; 25; 26; 27; 28; 29; 94; 95;
    96; 97; -1].
(** src/Omega_h_chartab.cpp:18-24, as ASCII codes: tab, newline, carriage return, blank, a-z, A-Z, 0-9, and the
    punctuation in ASCII order. *)
Definition inv_chartab : list Z :=
  [9; 10; 13; 32] ++ zfromto 97 123 ++ zfromto 65 91 ++ zfromto 48 58 ++
  zfromto 33 48 ++ zfromto 58 65 ++ zfromto 91 97 ++ zfromto 123 127.

(** src/Omega_h_finite_automaton.cpp:394-413, char signed (codes of bytes are -128..127) *)
Definition is_symbol (c : Z) : res bool :=
  if c <? 0 then Ok false else s <- zget chartab c ;; Ok (0 <=? s).
(** src/Omega_h_finite_automaton.cpp:415-437 *)
Definition get_symbol (c : Z) : res Z :=
  _ <- check (0 <=? c) ;; s <- zget chartab c ;; _ <- check (0 <=? s) ;; Ok s.
(** src/Omega_h_finite_automaton.cpp:439-443 *)
Definition get_char (symbol : Z) : res Z :=
  _ <- check (0 <=? symbol) ;; _ <- check (symbol <? NCHARS) ;; zget inv_chartab symbol.

(** src/Omega_h_finite_automaton.cpp:445-449 *)
Definition make_char_set_nfa (accepted : list Z) (token : Z) : res automaton :=
  symbol_set <- foldM (fun s c => x <- get_symbol c ;; Ok (set_insert x s)) accepted [] ;;
  make_set_nfa NCHARS symbol_set token.
(** src/Omega_h_finite_automaton.cpp:457-460 *)
Definition make_char_single_nfa (symbol_char token : Z) : res automaton :=
  x <- get_symbol symbol_char ;; y <- get_symbol symbol_char ;; make_range_nfa NCHARS x y token.
(** src/Omega_h_finite_automaton.cpp:462-469 *)
Definition negate_set (s : list Z) : res (list Z) :=
  forM NCHARS [] (fun out symbol =>
    c <- zget inv_chartab symbol ;; Ok (if set_count c s then out else set_insert c out)).

(* ------------------------------------------------------------------ *)
(** Regular expressions, as the parse trees of the grammar of src/Omega_h_regex.cpp:26-48; that the reader builds
    the right tree is not modelled. *)
Inductive set_item := ItemChar (c : Z) | ItemRange (first last : Z).
Inductive regex :=
| RChar (c : Z)
| RAny
| RSet (items : list set_item)
| RNotSet (items : list set_item)
| RUnion (a b : regex)
| RConcat (a b : regex)
| RStar (a : regex)
| RPlus (a : regex)
| RMaybe (a : regex).

(** at_reduce for PROD_SET_ITEM_CHAR and PROD_RANGE, src/Omega_h_regex.cpp:224-233; the range loop counts a char up
    to its last character, which a regex cannot make 127 (the reader refuses that character). *)
Definition item_set (i : set_item) : list Z :=
  match i with
  | ItemChar c => [c]
  | ItemRange a b => fold_left (fun s c => set_insert c s) (zfromto a (b + 1)) []
  end.
(** PROD_SET_ITEMS_DECAY and PROD_SET_ITEMS_ADD, src/Omega_h_regex.cpp:181,221-223, with unite and unite_with of
    src/Omega_h_set.hpp:8-18 *)
Definition items_set (items : list set_item) : list Z :=
  fold_left (fun s i => fold_left (fun s c => set_insert c s) (item_set i) s) items [].

(** at_reduce, src/Omega_h_regex.cpp:173-238, applied bottom up. *)
Fixpoint build_nfa (r : regex) (token : Z) : res automaton :=
  match r with
  | RChar c => make_char_single_nfa c token
  | RAny => make_range_nfa NCHARS 0 (NCHARS - 1) token
  | RSet items => make_char_set_nfa (items_set items) token
  | RNotSet items => s <- negate_set (items_set items) ;; make_char_set_nfa s token
  | RUnion a b => x <- build_nfa a token ;; y <- build_nfa b token ;; unite x y
  | RConcat a b => x <- build_nfa a token ;; y <- build_nfa b token ;; concat x y token
  | RStar a => x <- build_nfa a token ;; star x token
  | RPlus a => x <- build_nfa a token ;; plus x token
  | RMaybe a => x <- build_nfa a token ;; maybe x token
  end.
(** PROD_REGEX, src/Omega_h_regex.cpp:175-177: regex::build_dfa, :137-152, on a regular expression that parses. *)
Definition build_dfa (r : regex) (token : Z) : res automaton :=
  nfa <- build_nfa r token ;; d <- make_deterministic nfa ;; simplify d.

(** build_lexer, src/Omega_h_language.cpp:92-105, for a language with at least one token (with none the automaton
    is uninitialised). *)
Definition build_lexer (tokens : list regex) : res automaton :=
  match tokens with
  | [] => UB
  | r :: rest =>
      lexer <- build_dfa r 0 ;;
      '(lexer, _) <- foldM (fun '(lexer, i) r => d <- build_dfa r i ;; u <- unite lexer d ;; Ok (u, i + 1)) rest (lexer, 1) ;;
      d <- make_deterministic lexer ;; simplify d
  end.
