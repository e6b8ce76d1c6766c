(** The certificates of the library's languages, computed, and the two grammars that go wrong. *)
From Verif Require Import Prelude M_Automaton M_Grammar M_Parser M_Lanes M_Languages S_Grammar P_Parser P_Parser7 P_Lanes P_Grammar P_Cover P_Reading X_Parser.
Local Open Scope Z_scope.

(** Certificates computed beforehand; only their check is part of the proof, since it is repeated by every checker of the proof. *)
Definition certificate_of (fuel : nat) (l : language) : certificate :=
  match build_grammar l with
  | Ok (Some g) => match build_lalr_parser fuel g with Ok p => certify 40 p | _ => mk_certificate [] [] [] end
  | _ => mk_certificate [] [] []
  end.
Definition regex_certificate : certificate := Eval vm_compute in certificate_of 20 regex_language.
Lemma regex_certified : language_certified 20 regex_certificate regex_language = true.
Proof. vm_cast_no_check (eq_refl true). Qed.
Definition math_certificate : certificate := Eval vm_compute in certificate_of 20 math_language.
Lemma math_certified : language_certified 20 math_certificate math_language = true.
Proof. vm_cast_no_check (eq_refl true). Qed.
Definition xml_certificate : certificate := Eval vm_compute in certificate_of 20 xml_language.
Lemma xml_certified : language_certified 20 xml_certificate xml_language = true.
Proof. vm_cast_no_check (eq_refl true). Qed.
Definition yaml_certificate : certificate := Eval vm_compute in certificate_of 30 yaml_language.
Lemma yaml_certified : language_certified 30 yaml_certificate yaml_language = true.
Proof. vm_cast_no_check (eq_refl true). Qed.

(** The parser that the reader of a language uses decides the language. *)
Lemma languages_decided l : In l [regex_language; math_language; xml_language; yaml_language] ->
  exists g p goal, build_grammar l = Ok (Some g) /\ (exists fuel, build_lalr_parser fuel g = Ok p) /\ goal_name l goal /\
    forall V (acts : actions_of V) w, tokens_in l w ->
      (exists t, denotes l goal t /\ yield t = w /\ (forall t', denotes l goal t' -> yield t' = w -> t' = t) /\ ends_with p acts w (result_of acts t)) \/
      ((forall t, denotes l goal t -> yield t <> w) /\ ends_with p acts w Refused).
Proof.
  intros I. assert (exists fuel cert, language_certified fuel cert l = true) as (fuel & cert & C).
  { destruct I as [<-|[<-|[<-|[<-|[]]]]].
    - exists 20%nat, regex_certificate. exact regex_certified.
    - exists 20%nat, math_certificate. exact math_certified.
    - exists 20%nat, xml_certificate. exact xml_certified.
    - exists 30%nat, yaml_certificate. exact yaml_certified. }
  destruct (certified_language _ _ _ C) as (g & p & goal & Eg & Ep & H). exists g, p, goal. split; [exact Eg|]. split; [exists fuel; exact Ep | exact H].
Qed.

Lemma refused_sane : sane_trace refused_contexts (grammar_of refused_language).
Proof.
  intros cs states adequate ctxs E. unfold refused_contexts in E. injection E as <-. induction states as [|s states IH]; cbn [map]; constructor; [|exact IH].
  generalize (zlen (configs s) =? 3). intros b.
  induction (configs s) as [|c l IHl]; cbn [map]; constructor; [|exact IHl]. intros k d Hk G. rewrite G in Hk.
  rewrite Z.eqb_refl in Hk. injection Hk as <-. reflexivity.
Qed.
Lemma refused_by_lanes : exists g p goal, build_grammar refused_language = Ok (Some g) /\ p_grammar p = g /\ goal_name refused_language goal /\
  (forall V (acts : actions_of V) w, tokens_in refused_language w ->
      (exists t, denotes refused_language goal t /\ yield t = w /\ (forall t', denotes refused_language goal t' -> yield t' = w -> t' = t) /\ ends_with p acts w (result_of acts t)) \/
      ((forall t, denotes refused_language goal t -> yield t <> w) /\ ends_with p acts w Refused)) /\
  forall fuel p', build_lalr_parser fuel g <> Ok p'.
Proof.
  assert (build_grammar refused_language = Ok (Some (grammar_of refused_language))) as Eg by (vm_compute; reflexivity).
  assert (build_parser refused_contexts (grammar_of refused_language) = Ok refused_parser) as Ep by (vm_compute; reflexivity).
  assert (certified (certify 10 refused_parser) refused_parser = true) as C by (vm_compute; reflexivity).
  destruct (build_grammar_some _ _ Eg) as (A & Ent & _ & goal & Hg & _ & Hp).
  exists (grammar_of refused_language), refused_parser, goal. split; [exact Eg|]. split; [vm_compute; reflexivity|]. split; [exact Hg|]. split.
  - destruct (certified_decides _ _ _ _ A refused_sane Ep C) as [U D]. intros V acts w T. destruct (D V acts w) as [(t & P & R)|(N & R)].
    { unfold tokens_of. eapply Forall_impl; [|exact T]. intros [k x] H. cbn in *. lia. }
    + left. exists t. pose proof P as P0. apply Hp in P0 as [P1 P2]. repeat split; try assumption; try apply R.
      intros t' Dt Et. apply (U t' t w); [apply Hp; split; assumption | exact P].
    + right. split; [|exact R]. intros t Dt Et. apply (N t). apply Hp. split; assumption.
  - intros fuel p' E. assert (build_lalr_parser 10 (grammar_of refused_language) = Abort) as X by (vm_compute; reflexivity).
    pose proof (build_agree fuel 10 (grammar_of refused_language)) as Y. rewrite E, X in Y. specialize (Y ltac:(discriminate) ltac:(discriminate)). discriminate.
Qed.

Lemma endless_from {V} (acts : actions_of V) v : at_reduce acts 2 [] = Some v -> forall fuel k x w stack vs s, k = 0 \/ k = 1 -> s = 0 \/ s = 3 ->
  read_tokens fuel (parser_of 5 endless_language) acts (s :: stack) vs ((k, x) :: w) = Ok Reading.
Proof.
  intros Ev. replace (parser_of 5 endless_language) with (mk_parser
    (mk_grammar 6 2 [mk_production 2 [3]; mk_production 3 [4; 3]; mk_production 4 []; mk_production 5 [2]])
    [[Some (Reduce 2); Some (Reduce 2)]; [None; Some (Reduce 3)]; [Some (Reduce 0); Some (Reduce 0)]; [Some (Reduce 2); Some (Reduce 2)]; [Some (Reduce 1); Some (Reduce 1)]]
    [[1; 2; 3; -1]; [-1; -1; -1; -1]; [-1; -1; -1; -1]; [-1; 4; 3; -1]; [-1; -1; -1; -1]]) by (vm_compute; reflexivity).
  induction fuel as [|fuel IH]; intros k x w stack vs s Hk Hs; [reflexivity|]. cbn [read_tokens terminal_table p_grammar].
  replace (cell_get _ s k) with (@Ok (option action) (Some (Reduce 2))) by (destruct Hk as [->| ->], Hs as [->| ->]; reflexivity). cbn [bind].
  change (2 =? get_accept_production _) with false. cbn iota. change (vget (productions _) 2) with (Ok (mk_production 4 [])). cbn [bind rhs length firstn rev pop].
  rewrite Ev. unfold execute_action. change (vget (productions _) 2) with (Ok (mk_production 4 [])). cbn [bind rhs length pop lhs nonterminal_table].
  replace (cell_get _ s _) with (@Ok Z 3) by (destruct Hs as [->| ->]; reflexivity). cbn [bind]. apply IH; [exact Hk | right; reflexivity].
Qed.
Lemma endless_reading : exists g p, build_grammar endless_language = Ok (Some g) /\ (exists fuel, build_lalr_parser fuel g = Ok p) /\
  forall V (acts : actions_of V) n w, at_reduce acts 2 [] <> None -> tokens_in endless_language w -> read_all n p acts w = Ok Reading.
Proof.
  exists (grammar_of endless_language), (parser_of 5 endless_language). split; [vm_compute; reflexivity|]. split; [exists 5%nat; vm_compute; reflexivity|].
  intros V acts n w N T. destruct (at_reduce acts 2 []) as [v|] eqn:Ev; [|congruence]. unfold read_all.
  change (get_end_terminal _) with 1. destruct w as [|[k x] w]; cbn [app].
  - apply endless_from with (v := v); auto.
  - inversion T as [|? ? H1 H2]; subst. change (zlen (token_names endless_language)) with 1 in H1. apply endless_from with (v := v); [exact Ev | left; lia | auto].
Qed.
