(** Specification vocabulary: the longest match rule. *)
From Verif Require Import Prelude M_Automaton S_Automaton M_Lexer.
Local Open Scope Z_scope.

(** What the automaton says of a text: a token, or -1. *)
Definition reads (d : automaton) (w : list Z) (m : Z) : Prop := exists sy, mapM get_symbol w = Ok sy /\ run d 0 sy = Ok m.

(** The automaton has no state left after this text. *)
Definition stuck (d : automaton) (w : list Z) : Prop :=
  exists c v s, w = v ++ [c] /\ mapM get_symbol v = Ok s /\ exists x t, get_symbol c = Ok x /\ path d 0 s t /\ step d t x = Ok (-1).

(** p, the first token of a text, is its longest non-empty prefix that is one. *)
Definition longest (d : automaton) (p rest : list Z) (m : Z) : Prop :=
  p <> [] /\ m <> -1 /\ reads d p m /\
  forall q r m', rest = q ++ r -> q <> [] -> reads d (p ++ q) m' -> m' = -1.

(** The text is cut into tokens from left to right, each as long as possible, down to a rest. *)
Inductive munches (d : automaton) : list Z -> list (Z * list Z) -> list Z -> Prop :=
| munch_done w : munches d w [] w
| munch_next p rest m ts left : longest d p rest m -> munches d rest ts left -> munches d (p ++ rest) ((m, p) :: ts) left.

(** The same, and the automaton gets stuck within the text after each token but the last. *)
Inductive munches_stuck (d : automaton) : list Z -> list (Z * list Z) -> Prop :=
| stuck_last p m : longest d p [] m -> munches_stuck d p [(m, p)]
| stuck_next p rest m ts : longest d p rest m -> (exists q r, rest = q ++ r /\ q <> [] /\ stuck d (p ++ q)) ->
    munches_stuck d rest ts -> munches_stuck d (p ++ rest) ((m, p) :: ts).

(** Where one is after reading w: the line, the column, and the text of the line so far. *)
Definition placed (w : list Z) (l c : Z) (t : list Z) : Prop :=
  l = 1 + zlen (filter (fun x => x =? 10) w) /\ c = 1 + zlen t /\ ~ In 10 t /\
  exists before, w = before ++ t /\ (before = [] \/ exists b, before = b ++ [10]).

Definition texts (ts : list lexeme) : list Z := List.concat (map lm_text ts).
Definition cut (ts : list lexeme) : list (Z * list Z) := map (fun t => (lm_token t, lm_text t)) ts.

(** The same rule said of the regular expressions of a language, with no automaton: the first token is the longest
    non-empty prefix that some expression matches, and its number that of the first expression matching it. *)
Definition longest_match (rs : list regex) (p rest : list Z) (m : Z) : Prop :=
  p <> [] /\ m <> -1 /\ first_match rs p m /\
  forall q r e, rest = q ++ r -> q <> [] -> In e rs -> ~ matches e (p ++ q).
Inductive language_cut (rs : list regex) : list Z -> list (Z * list Z) -> list Z -> Prop :=
| cut_done w : language_cut rs w [] w
| cut_next p rest m ts left : longest_match rs p rest m -> language_cut rs rest ts left -> language_cut rs (p ++ rest) ((m, p) :: ts) left.
