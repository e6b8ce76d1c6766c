(** C82: reading the command line. *)
From Coq Require Import String.
From Verif Require Import Prelude M_CmdLine S_CmdLine P_CmdLine1 P_CmdLine2 P_CmdLine3 X_CmdLine.
Local Open Scope Z_scope.

(** Whatever flags and arguments were added and whatever was read before, reading any line ends and does nothing undefined. *)
Theorem reading_is_defined : forall c words l, reachable c -> holds words l -> exists o, parse c l = Ok (Some o).
Proof. exact parse_defined_w. Qed.
(** It succeeds exactly if the words can be read with no required argument missing and no clash, and then the reader holds what was read
    and the line the words that were left, in order. *)
Theorem reading_is_right : forall c prog words l, reachable c -> distinct_flags c -> holds (prog :: words) l -> forall c' left,
  (exists l', parse c l = Ok (Some (true, c', l')) /\ holds (prog :: left) l') <-> reads c words c' left false /\ c_nargs c' = length (c_args c').
Proof. exact parse_iff_w. Qed.
(** Otherwise it fails. *)
Theorem reading_fails_otherwise : forall c prog words l, reachable c -> distinct_flags c -> holds (prog :: words) l ->
  (exists c' l', parse c l = Ok (Some (false, c', l'))) <-> ~ exists c' left, reads c words c' left false /\ c_nargs c' = length (c_args c').
Proof. exact parse_fails_w. Qed.
(** The final reading succeeds exactly if moreover no word is left and help was not asked for. *)
Theorem final_reading_is_right : forall c prog words l, reachable c -> distinct_flags c -> holds (prog :: words) l -> forall c',
  (exists l', parse_final c l = Ok (Some (true, c', l'))) <-> reads c words c' [] false /\ c_nargs c' = length (c_args c') /\ c_help c' = false.
Proof. exact parse_final_w. Qed.
(** What a flag is then said to have was on the line right after the flag's name, in order; a flag that is said not to have been
    parsed gives the defaults. *)
Theorem flag_values_are_from_the_line : forall c prog words l c' l' f, reachable c -> distinct_flags c -> holds (prog :: words) l -> parse c l = Ok (Some (true, c', l')) -> In f (c_flags c) -> f_parsed f = false ->
  (parsed c' (f_name f) = false /\ forall a, In a (f_args f) -> get_flag_arg c' (f_name f) (it_name a) = Ok None) \/
  (parsed c' (f_name f) = true /\ exists before vals after, words = before ++ f_name f :: vals ++ after /\ length vals = length (f_args f) /\
     (NoDup (map it_name (f_args f)) -> forall k a v, nth_error (f_args f) k = Some a -> nth_error vals k = Some v -> get_flag_arg c' (f_name f) (it_name a) = Ok (Some v))).
Proof. exact got_flags_w. Qed.
(** The required arguments are words of the line in the order in which they were added, and so are the words that are left. *)
Theorem required_values_are_from_the_line : forall c prog words l c' l', reachable c -> distinct_flags c -> holds (prog :: words) l -> parse c l = Ok (Some (true, c', l')) ->
  exists pos left, within pos words /\ within left words /\ holds (prog :: left) l' /\ (c_nargs c + length pos = length (c_args c))%nat /\
  (NoDup (map it_name (c_args c)) -> forall k a v, nth_error (c_args c) (c_nargs c + k) = Some a -> nth_error pos k = Some v -> get_arg c' (it_name a) = Ok (Some v)).
Proof. exact got_args_w. Qed.
(** A line whose last word clashes is always rejected: *)
Theorem clashing_last_word_is_rejected : forall c prog words l c' left, reachable c -> distinct_flags c -> holds (prog :: words) l ->
  reads c words c' left true -> exists c'' l'', parse c l = Ok (Some (false, c'', l'')).
Proof. exact clash_rejected_w. Qed.
(** so it is not so that every line that can be read, with nothing missing and nothing left, is accepted. *)
Theorem every_readable_line_is_accepted_refuted : exists c c' prog words left l c'' l'', reachable c /\ distinct_flags c /\ holds (prog :: words) l /\
  reads c words c' left true /\ c_nargs c' = length (c_args c') /\ left = [] /\ parse c l = Ok (Some (false, c'', l'')).
Proof. exact last_word_w. Qed.

Print Assumptions reading_is_defined.
Print Assumptions reading_is_right.
Print Assumptions reading_fails_otherwise.
Print Assumptions final_reading_is_right.
Print Assumptions flag_values_are_from_the_line.
Print Assumptions required_values_are_from_the_line.
Print Assumptions clashing_last_word_is_rejected.
Print Assumptions every_readable_line_is_accepted_refuted.

(** The hypotheses are met by a reader with two flags and two required arguments.  In the line a flag takes the word [--help] as its
    value, and the flag and the words that are not needed stand between the required arguments. *)
Example reading_hypotheses : reachable box_reader /\ distinct_flags box_reader /\ holds ("osh_box" :: box_words)%string (line_of ("osh_box" :: box_words)%string).
Proof. exact (conj box_reachable (conj box_distinct (holds_line _))). Qed.
Local Open Scope string_scope.
Example reading_a_line : exists l', parse box_reader (line_of ("osh_box" :: box_words)%string) =
  Ok (Some (true, mk_cmd [mk_item "x" (Some "3"); mk_item "y" (Some "extra")] [mk_flag "--family" true [mk_item "type" (Some "--help")]; mk_flag "--symmetric" true []] 2 false, l')) /\
  holds ["osh_box"; "4"]%string l'.
Proof. vm_compute. eexists. split; [reflexivity|]. split; [reflexivity|]. eexists. reflexivity. Qed.
(** The same line is rejected or accepted as the flags were added in the one order or in the other. *)
Example order_of_adding_matters :
  (exists c l, parse name_first (line_of ("prog" :: name_words)%string) = Ok (Some (false, c, l))) /\
  (exists l, parse name_second (line_of ("prog" :: name_words)%string) = Ok (Some (true, name_second_after, l))).
Proof. vm_compute. split; eexists; [eexists|]; reflexivity. Qed.
