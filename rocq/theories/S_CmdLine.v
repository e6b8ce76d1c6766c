(** What reading a command line means (C82), in terms of its words. *)
From Coq Require Import String.
From Verif Require Import Prelude M_CmdLine.
Local Open Scope Z_scope.

(** The words of a line: [argv[0]] to [argv[argc - 1]].  What lies beyond is not constrained. *)
Definition holds (words : list string) (l : line) : Prop := fst l = zlen words /\ exists junk, snd l = map Some words ++ junk.

(** A flag when its arguments are given. *)
Definition given (f : flag) (vals : list string) : flag :=
  mk_flag (f_name f) true (map (fun av => mk_item (it_name (fst av)) (Some (snd av))) (combine (f_args f) vals)).

(** No flag has the name [w]. *)
Definition no_flag (c : cmd) (w : string) : Prop := forall f, In f (c_flags c) -> f_name f <> w.

(** The word [w] is the name of one of the flags [fs]. *)
Definition names (fs : list flag) (w : string) : bool := existsb (fun f => String.eqb (f_name f) w) fs.

(** [reads c words c' left clash]: reading [words], those after the program's name, makes [c] into [c'] and leaves the words
    [left].  [clash] tells whether the last word of all was taken as the last argument of a flag although it is the name of a flag that was added
    after that one.
    - The name of a flag not given before takes the right number of the words that follow as the flag's arguments, whatever they are.
    - [--help] is noted and left.
    - Any other word is the next of the required arguments, or is left if there are no more of them. *)
Inductive reads : cmd -> list string -> cmd -> list string -> bool -> Prop :=
| reads_end c : reads c [] c [] false
| reads_flag c before f after vals rest c' left clash :
    c_flags c = before ++ f :: after -> f_parsed f = false -> length vals = length (f_args f) ->
    reads (mk_cmd (c_args c) (before ++ given f vals :: after) (c_nargs c) (c_help c)) rest c' left clash ->
    reads c (f_name f :: vals ++ rest) c' left
      (match rest with [] => names after (last vals (f_name f)) | _ => clash end)
| reads_help c rest c' left clash :
    no_flag c "--help" ->
    reads (mk_cmd (c_args c) (c_flags c) (c_nargs c) true) rest c' left clash ->
    reads c ("--help"%string :: rest) c' ("--help"%string :: left) clash
| reads_arg c before a after w rest c' left clash :
    no_flag c w -> w <> "--help"%string ->
    c_args c = before ++ a :: after -> length before = c_nargs c ->
    reads (mk_cmd (before ++ mk_item (it_name a) (Some w) :: after) (c_flags c) (S (c_nargs c)) (c_help c)) rest c' left clash ->
    reads c (w :: rest) c' left clash
| reads_other c w rest c' left clash :
    no_flag c w -> w <> "--help"%string -> c_nargs c = length (c_args c) ->
    reads c rest c' left clash ->
    reads c (w :: rest) c' (w :: left) clash.

(** The readers a program can have: made by adding flags and arguments, and by reading lines, in any order. *)
Inductive reachable : cmd -> Prop :=
| reach_new : reachable new_cmd
| reach_flag c name : reachable c -> reachable (add_flag c name)
| reach_arg c name : reachable c -> reachable (add_arg c name)
| reach_flag_arg c k name : reachable c -> reachable (add_flag_arg c k name)
| reach_parse c words l ok c' l' : reachable c -> holds words l -> parse c l = Ok (Some (ok, c', l')) -> reachable c'.

(** No two flags have the same name. *)
Definition distinct_flags (c : cmd) : Prop := NoDup (map f_name (c_flags c)).

(** The words [a] stand in [b] in the same order, perhaps with others between them. *)
Inductive within : list string -> list string -> Prop :=
| within_nil : within [] []
| within_take w a b : within a b -> within (w :: a) (w :: b)
| within_skip w a b : within a b -> within a (w :: b).
