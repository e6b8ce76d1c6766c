(** What the grammar and parser properties mean, apart from how the code does it. *)
From Verif Require Import Prelude M_Automaton M_Grammar M_Parser.
Local Open Scope Z_scope.

(** Parse trees: the leaves are tokens with their text, the other nodes are uses of productions. *)
Inductive tree := Leaf (token : Z) (text : list Z) | Node (production : Z) (children : list tree).

(** The tokens at the leaves, from left to right *)
Fixpoint yield (t : tree) : list (Z * list Z) :=
  match t with
  | Leaf token text => [(token, text)]
  | Node _ children => List.concat (map yield children)
  end.
Definition yields (ts : list tree) : list (Z * list Z) := List.concat (map yield ts).

(** [derives g x t]: t is a parse tree for the symbol x *)
Inductive derives (g : grammar) : Z -> tree -> Prop :=
| derives_leaf token text : 0 <= token < nterminals g -> derives g token (Leaf token text)
| derives_node i p ts : zget (productions g) i = Ok p -> nterminals g <= lhs p -> derives_all g (rhs p) ts -> derives g (lhs p) (Node i ts)
with derives_all (g : grammar) : list Z -> list tree -> Prop :=
| derives_nil : derives_all g [] []
| derives_cons x xs t ts : derives g x t -> derives_all g xs ts -> derives_all g (x :: xs) (t :: ts).

(** A grammar that has been given its end terminal and accept production: the symbols are in range, neither the end
    terminal nor the accept symbol occurs in a right hand side, and the last production, alone in deriving the accept
    symbol, derives the goal from it. *)
Record augmented (g : grammar) : Prop := {
  aug_counts : 1 <= nterminals g /\ nterminals g < nsymbols g;
  aug_lhs : forall p, In p (productions g) -> 0 <= lhs p < nsymbols g;
  aug_rhs : forall p x, In p (productions g) -> In x (rhs p) -> 0 <= x < nsymbols g - 1 /\ x <> nterminals g - 1;
  aug_accept : exists ps goal, productions g = ps ++ [mk_production (nsymbols g - 1) [goal]] /\ nterminals g <= goal /\
                 forall p, In p ps -> lhs p <> nsymbols g - 1 }.
(** [goal_of g x]: x is the symbol that the whole text must derive from *)
Definition goal_of (g : grammar) (x : Z) : Prop := exists p, zget (productions g) (zlen (productions g) - 1) = Ok p /\ rhs p = [x].

(** A text's tokens, none of them the end terminal *)
Definition tokens_of (g : grammar) (w : list (Z * list Z)) : Prop := Forall (fun '(k, _) => 0 <= k < nterminals g - 1) w.
(** [parses g t w]: t is a parse tree of the whole text w *)
Definition parses (g : grammar) (t : tree) (w : list (Z * list Z)) : Prop := (exists x, goal_of g x /\ derives g x t) /\ yield t = w.

(** The value of a tree: the results of the reader's actions, from the leaves up; None when one of them throws. *)
Fixpoint value {V} (acts : actions_of V) (t : tree) : option V :=
  match t with
  | Leaf token text => at_shift acts token text
  | Node i children =>
      match fold_right (fun c r => match value acts c, r with Some v, Some vs => Some (v :: vs) | _, _ => None end) (Some []) children with
      | Some vs => at_reduce acts i vs
      | None => None
      end
  end.
Definition values {V} (acts : actions_of V) (ts : list tree) : option (list V) :=
  fold_right (fun c r => match value acts c, r with Some v, Some vs => Some (v :: vs) | _, _ => None end) (Some []) ts.

(** How reading a text ends when the tree of the text is t *)
Definition result_of {V} (acts : actions_of V) (t : tree) : verdict V :=
  match value acts t with Some v => Read v | None => Refused end.

(** The moves of a parser between its states: shifts on terminals and gotos on nonterminals *)
Definition moves (p : parser) (s x s' : Z) : Prop :=
  (0 <= x < nterminals (p_grammar p) /\ cell_get (terminal_table p) s x = Ok (Some (Shift s'))) \/
  (nterminals (p_grammar p) <= x < nsymbols (p_grammar p) /\ s' <> -1 /\
   cell_get (nonterminal_table p) s (x - nterminals (p_grammar p)) = Ok s').

(** [starts g xs t u]: some derivation of xs followed by the terminal t starts with the terminal u *)
Definition starts (g : grammar) (xs : list Z) (t u : Z) : Prop :=
  exists ts text text' w, derives_all g xs ts /\ yields ts ++ [(t, text)] = (u, text') :: w.

(** The lookahead sets of the textbook (LALR(1)): [lookahead p s i d t] when t may follow production i, of which the
    first d symbols have been read, in state s. *)
Inductive lookahead (p : parser) : Z -> Z -> Z -> Z -> Prop :=
| la_start : lookahead p 0 (zlen (productions (p_grammar p)) - 1) 0 (nterminals (p_grammar p) - 1)
| la_move s i d t q x s' : lookahead p s i d t -> zget (productions (p_grammar p)) i = Ok q -> zget (rhs q) d = Ok x ->
    moves p s x s' -> lookahead p s' i (d + 1) t
| la_close s i d t q x j r u : lookahead p s i d t -> zget (productions (p_grammar p)) i = Ok q -> zget (rhs q) d = Ok x ->
    nterminals (p_grammar p) <= x -> zget (productions (p_grammar p)) j = Ok r -> lhs r = x ->
    starts (p_grammar p) (skipn (S (Z.to_nat d)) (rhs q)) t u -> lookahead p s j 0 u.

(** Every reduction is made on every terminal in its lookahead set. *)
Definition covers (p : parser) : Prop :=
  forall s i q t, zget (productions (p_grammar p)) i = Ok q -> lookahead p s i (zlen (rhs q)) t ->
    cell_get (terminal_table p) s t = Ok (Some (Reduce i)).

(** A computation of contexts gives every configuration of every state a context or none, and the accept production the
    end terminal. *)
Definition context_ok (g : grammar) (cs : list config) (config_i : Z) (c : option (list Z)) : Prop :=
  forall k d, c = Some k -> zget cs config_i = Ok (zlen (productions g) - 1, d) -> k = [nterminals g - 1].
Definition sane_trace (trace : grammar -> list config -> list state_in_progress -> list bool -> res contexts_of_states) (g : grammar) : Prop :=
  forall cs states adequate ctxs, trace g cs states adequate = Ok ctxs ->
    Forall2 (fun s c => Forall2 (context_ok g cs) (configs s) c) states ctxs.

(** What a language means by itself: [denotes l name t] when t is a tree for the symbol of that name.  A name that several
    tokens have is the last of them; a production for the name of a token does not count. *)
Definition token_named (l : language) (name : list Z) (k : Z) : Prop :=
  zget (token_names l) k = Ok name /\ forall k', k < k' -> zget (token_names l) k' <> Ok name.
Inductive denotes (l : language) : list Z -> tree -> Prop :=
| denotes_token name k text : token_named l name k -> denotes l name (Leaf k text)
| denotes_production name i names ts : zget (named_productions l) i = Ok (name, names) -> ~ In name (token_names l) ->
    denotes_all l names ts -> denotes l name (Node i ts)
with denotes_all (l : language) : list (list Z) -> list tree -> Prop :=
| denotes_nil : denotes_all l [] []
| denotes_cons name names t ts : denotes l name t -> denotes_all l names ts -> denotes_all l (name :: names) (t :: ts).
(** Names that have productions and are not those of tokens, and known names *)
Definition nonterminal_name (l : language) (name : list Z) : Prop := ~ In name (token_names l) /\ In name (map fst (named_productions l)).
Definition known_name (l : language) (name : list Z) : Prop := In name (token_names l) \/ In name (map fst (named_productions l)).
(** The goals: no production uses them *)
Definition goal_name (l : language) (name : list Z) : Prop :=
  nonterminal_name l name /\ forall p, In p (named_productions l) -> ~ In name (snd p).
(** Every name used by a production is known. *)
Definition all_known (l : language) : Prop := forall p s, In p (named_productions l) -> In s (snd p) -> known_name l s.

(** A text's tokens, for a language *)
Definition tokens_in (l : language) (w : list (Z * list Z)) : Prop := Forall (fun '(k, _) => 0 <= k < zlen (token_names l)) w.

(** Reading ends with that verdict. *)
Definition ends_with {V} (p : parser) (acts : actions_of V) (w : list (Z * list Z)) (r : verdict V) : Prop :=
  r <> Reading /\ exists n, forall k, read_all (n + k) p acts w = Ok r.

(** Building a parser for the grammar never comes to computing the contexts (the grammar is LR(0)). *)
Definition needs_no_contexts (g : grammar) (p : parser) : Prop := forall trace, build_parser trace g = Ok p.

(** The reader's actions that give the tree itself *)
Definition tree_actions : actions_of tree :=
  {| at_shift := fun k x => Some (Leaf k x); at_reduce := fun i ts => Some (Node i ts) |}.
