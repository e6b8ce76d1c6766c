(** Specification vocabulary of the automata: runs, recognised words, and what regular expressions mean. *)
From Verif Require Import Prelude M_Automaton.
Local Open Scope Z_scope.

(** Runs of an automaton through its public accessors: from state s, reading w, one can be in state t.  The two
    columns after the symbols are moves that read nothing (they exist only in a nondeterministic automaton). *)
Inductive path (fa : automaton) : Z -> list Z -> Z -> Prop :=
| path_stop s : path fa s [] s
| path_symbol s x t w u :
    0 <= x < get_nsymbols fa -> step fa s x = Ok t -> t <> -1 -> path fa t w u -> path fa s (x :: w) u
| path_silent s e t w u :
    e = get_nsymbols fa \/ e = get_nsymbols fa + 1 -> step fa s e = Ok t -> t <> -1 -> path fa t w u -> path fa s w u.

(** Some run from the start state reads w and ends in a state accepting the token. *)
Definition recognises (fa : automaton) (w : list Z) (token : Z) : Prop :=
  exists s, path fa 0 w s /\ accepts fa s = Ok token /\ token <> -1.

(** What a lexer does with a deterministic automaton: follow the table, -1 when it is stuck or not accepting. *)
Fixpoint run (fa : automaton) (s : Z) (w : list Z) : res Z :=
  match w with
  | [] => accepts fa s
  | x :: w => t <- step fa s x ;; if t =? -1 then Ok (-1) else run fa t w
  end.

(** Automata whose table is rectangular and points to states of the table. *)
Definition well_formed (fa : automaton) : Prop :=
  0 < ncols fa /\ 0 <= get_nsymbols fa /\ table fa <> [] /\ zlen (accepted_tokens fa) = zlen (table fa) /\
  (forall row, In row (table fa) -> zlen row = ncols fa /\ forall t, In t row -> -1 <= t < zlen (table fa)) /\
  (forall t, In t (accepted_tokens fa) -> -1 <= t).

(** No accepting state has a silent move; no accepting state has any move. *)
Definition quiet_accepts (fa : automaton) : Prop :=
  forall s token e t, accepts fa s = Ok token -> token <> -1 ->
  e = get_nsymbols fa \/ e = get_nsymbols fa + 1 -> step fa s e = Ok t -> t = -1.
Definition final_accepts (fa : automaton) : Prop :=
  forall s token x t, accepts fa s = Ok token -> token <> -1 -> step fa s x = Ok t -> t = -1.

(** The least number with a property, or -1 when there is none. *)
Definition least (P : Z -> Prop) (m : Z) : Prop := (m = -1 /\ forall t, ~ P t) \/ (P m /\ forall t, P t -> m <= t).

(** Words over the alphabet of an automaton. *)
Definition over (fa : automaton) (w : list Z) : Prop := forall x, In x w -> 0 <= x < get_nsymbols fa.

(** Characters a reader knows: tab, newline, carriage return and the printable ASCII characters. *)
Definition readable (c : Z) : Prop := c = 9 \/ c = 10 \/ c = 13 \/ 32 <= c <= 126.

(** The meaning of regular expressions, over characters. *)
Definition in_item (c : Z) (i : set_item) : Prop :=
  match i with ItemChar d => c = d | ItemRange a b => a <= c <= b end.
Fixpoint matches (r : regex) (w : list Z) : Prop :=
  match r with
  | RChar c => w = [c]
  | RAny => exists c, readable c /\ w = [c]
  | RSet items => exists c i, In i items /\ in_item c i /\ w = [c]
  | RNotSet items => exists c, readable c /\ (forall i, In i items -> ~ in_item c i) /\ w = [c]
  | RUnion a b => matches a w \/ matches b w
  | RConcat a b => exists u v, w = u ++ v /\ matches a u /\ matches b v
  | RStar a => exists ws, w = List.concat ws /\ Forall (matches a) ws
  | RPlus a => exists ws, ws <> [] /\ w = List.concat ws /\ Forall (matches a) ws
  | RMaybe a => w = [] \/ matches a w
  end.

(** Regular expressions that name only readable characters. *)
Fixpoint regex_ok (r : regex) : Prop :=
  match r with
  | RChar c => readable c
  | RAny | RNotSet _ => True
  | RSet items => forall c i, In i items -> in_item c i -> readable c
  | RUnion a b | RConcat a b => regex_ok a /\ regex_ok b
  | RStar a | RPlus a | RMaybe a => regex_ok a
  end.

(** No two states have the same token and the same moves. *)
Definition apart (fa : automaton) : Prop :=
  forall s t, 0 <= s < zlen (table fa) -> 0 <= t < zlen (table fa) -> accepts fa s = accepts fa t ->
  (forall x, step fa s x = step fa t x) -> s = t.

(** The lexer of a list of tokens: the first of the regular expressions that match. *)
Definition first_match (rs : list regex) (w : list Z) (m : Z) : Prop :=
  (m = -1 /\ forall r, In r rs -> ~ matches r w) \/
  (exists r, zget rs m = Ok r /\ matches r w /\ forall j q, 0 <= j < m -> zget rs j = Ok q -> ~ matches q w).
