(** Example data for C82: a reader like that of src/osh_box.cpp, and two readers that differ in the order of their flags. *)
From Coq Require Import String.
From Verif Require Import Prelude M_CmdLine S_CmdLine P_CmdLine1 P_CmdLine2 P_CmdLine3.
Local Open Scope Z_scope.
Local Open Scope string_scope.

Definition box_reader : cmd := add_arg (add_arg (add_flag (add_flag_arg (add_flag new_cmd "--family") 0 "type") "--symmetric") "x") "y".
Definition box_words : list string := ["3"; "--symmetric"; "extra"; "--family"; "--help"; "4"].
Definition line_of (words : list string) : line := (zlen words, (map Some words ++ [None])%list).

Lemma holds_line words : holds words (line_of words).
Proof. split; [reflexivity|]. exists [None]. reflexivity. Qed.
Lemma box_reachable : reachable box_reader.
Proof. repeat constructor. Qed.
Lemma box_distinct : distinct_flags box_reader.
Proof. repeat constructor; cbn; intuition discriminate. Qed.

(** One flag takes a value and another does not, added in the one order and in the other. *)
Definition name_first : cmd := add_flag (add_flag_arg (add_flag new_cmd "--name") 0 "value") "--verbose".
Definition name_second : cmd := add_flag_arg (add_flag (add_flag new_cmd "--verbose") "--name") 1 "value".
Definition name_words : list string := ["--name"; "--verbose"].
Definition name_first_after : cmd := mk_cmd [] [mk_flag "--name" true [mk_item "value" (Some "--verbose")]; mk_flag "--verbose" false []] 0 false.
Definition name_second_after : cmd := mk_cmd [] [mk_flag "--verbose" false []; mk_flag "--name" true [mk_item "value" (Some "--verbose")]] 0 false.
Lemma name_first_reachable : reachable name_first.
Proof. repeat constructor. Qed.
Lemma name_second_reachable : reachable name_second.
Proof. repeat constructor. Qed.
Lemma name_first_distinct : distinct_flags name_first.
Proof. repeat constructor; cbn; intuition discriminate. Qed.
Lemma name_first_reads : reads name_first name_words name_first_after [] true.
Proof.
  exact (reads_flag name_first [] (mk_flag "--name" false [mk_item "value" None]) [mk_flag "--verbose" false []] ["--verbose"] [] name_first_after [] false eq_refl eq_refl eq_refl (reads_end _)).
Qed.
Lemma last_word_w : exists c c' prog words left l c'' l'', reachable c /\ distinct_flags c /\ holds (prog :: words) l /\
  reads c words c' left true /\ c_nargs c' = length (c_args c') /\ left = [] /\ parse c l = Ok (Some (false, c'', l'')).
Proof.
  exists name_first, name_first_after, "prog", name_words, [], (line_of ("prog" :: name_words)).
  destruct (clash_rejected_w name_first "prog" name_words _ _ _ name_first_reachable name_first_distinct (holds_line _) name_first_reads) as (c'' & l'' & E).
  exists c'', l''. split; [exact name_first_reachable|]. split; [exact name_first_distinct|]. split; [apply holds_line|]. split; [exact name_first_reads|]. split; [reflexivity|]. split; [reflexivity|exact E].
Qed.
