(** From regular expressions to automata. *)
From Verif Require Import Prelude M_Automaton S_Automaton P_Automaton P_Automaton2 P_Automaton3 P_Automaton4 P_Automaton5 P_Automaton6.
Local Open Scope Z_scope.

(* ------------------------------------------------------------------ *)
(** Characters *)

Definition readableb (c : Z) : bool := (c =? 9) || (c =? 10) || (c =? 13) || ((32 <=? c) && (c <=? 126)).
Lemma readableb_iff c : readableb c = true <-> readable c.
Proof. unfold readableb, readable. rewrite !orb_true_iff, andb_true_iff, !Z.eqb_eq, !Z.leb_le. tauto. Qed.

Definition oz (r : res Z) (x : Z) : bool := match r with Ok y => y =? x | _ => false end.
Lemma oz_iff r x : oz r x = true <-> r = Ok x.
Proof. destruct r as [y| |]; cbn; [rewrite Z.eqb_eq|..]; split; congruence. Qed.

Local Lemma sweep_chars : forallb (fun c =>
  match get_symbol c with
  | Ok s => readableb c && (0 <=? s) && (s <? NCHARS) && oz (get_char s) c
  | Abort => negb (readableb c)
  | UB => false
  end) (zfromto (-128) 128) = true.
Proof. vm_compute. reflexivity. Qed.

Local Lemma sweep_symbols : forallb (fun s =>
  match get_char s with Ok c => readableb c && oz (get_symbol c) s | _ => false end) (zrange NCHARS) = true.
Proof. vm_compute. reflexivity. Qed.

Lemma get_symbol_range c s : get_symbol c = Ok s -> 0 <= c < 128.
Proof.
  unfold get_symbol. destruct (Z.leb_spec 0 c); [|discriminate]. cbn [check bind]. destruct (zget chartab c) eqn:E; try discriminate.
  apply zget_bounds in E. intros _. exact E.
Qed.

Lemma get_symbol_inv c s : get_symbol c = Ok s -> readable c /\ 0 <= s < NCHARS /\ get_char s = Ok c.
Proof.
  intros E. pose proof (get_symbol_range c s E) as R. pose proof sweep_chars as Sw. rewrite forallb_forall in Sw.
  specialize (Sw c). rewrite E in Sw. assert (In c (zfromto (-128) 128)) as I by (apply in_zfromto; lia). specialize (Sw I).
  rewrite !andb_true_iff, readableb_iff, oz_iff, Z.leb_le, Z.ltb_lt in Sw. tauto.
Qed.

Lemma get_symbol_readable c : readable c -> exists s, get_symbol c = Ok s.
Proof.
  intros R. assert (In c (zfromto (-128) 128)) as I by (apply in_zfromto; unfold readable in R; lia).
  pose proof sweep_chars as Sw. rewrite forallb_forall in Sw. specialize (Sw c I). apply readableb_iff in R.
  destruct (get_symbol c) as [s| |]; [eauto | rewrite R in Sw; discriminate | discriminate].
Qed.

Lemma get_symbol_refuses c : -128 <= c < 128 -> ~ readable c -> get_symbol c = Abort.
Proof.
  intros R N. assert (In c (zfromto (-128) 128)) as I by (apply in_zfromto; lia).
  pose proof sweep_chars as Sw. rewrite forallb_forall in Sw. specialize (Sw c I). rewrite <- readableb_iff in N.
  destruct (get_symbol c) as [s| |]; [|reflexivity | discriminate]. rewrite !andb_true_iff in Sw. tauto.
Qed.

Lemma get_char_ok s : 0 <= s < NCHARS -> exists c, get_char s = Ok c /\ readable c /\ get_symbol c = Ok s.
Proof.
  intros R. apply in_zrange in R. pose proof sweep_symbols as Sw. rewrite forallb_forall in Sw. specialize (Sw s R).
  destruct (get_char s) as [c| |]; try discriminate. rewrite andb_true_iff, readableb_iff, oz_iff in Sw. exists c. tauto.
Qed.

Lemma get_symbol_inj c d s : get_symbol c = Ok s -> get_symbol d = Ok s -> c = d.
Proof. intros E F. apply get_symbol_inv in E as (_ & _ & E). apply get_symbol_inv in F as (_ & _ & F). congruence. Qed.

Lemma symbols_inj : forall w v sy, mapM get_symbol w = Ok sy -> mapM get_symbol v = Ok sy -> w = v.
Proof.
  induction w as [|c w IH]; intros [|d v] sy E F; cbn in E, F.
  - reflexivity.
  - injection E as <-. apply bind_ok in F as (s & _ & F). apply bind_ok in F as (l & _ & F). discriminate.
  - injection F as <-. apply bind_ok in E as (s & _ & E). apply bind_ok in E as (l & _ & E). discriminate.
  - apply bind_ok in E as (s & C & E). apply bind_ok in E as (sw & Ew & E). injection E as <-.
    apply bind_ok in F as (t & D & F). apply bind_ok in F as (sv & Ev & F). injection F as X Y. subst t sv.
    f_equal; [eapply get_symbol_inj; eassumption | eapply IH; eassumption].
Qed.

Lemma mapM_app_inv {A B} (f : A -> res B) u v l : mapM f (u ++ v) = Ok l -> exists a b, l = a ++ b /\ mapM f u = Ok a /\ mapM f v = Ok b.
Proof.
  revert l. induction u as [|x u IH]; intros l E; cbn in E |- *.
  - exists [], l. auto.
  - destruct (f x) as [y| |]; try discriminate. cbn [bind] in *. destruct (mapM f (u ++ v)) as [l'| |]; try discriminate. cbn [bind] in E. injection E as <-.
    destruct (IH l' eq_refl) as (a & b & -> & -> & Eb). cbn [bind]. exists (y :: a), b. auto.
Qed.

Lemma mapM_app_intro {A B} (f : A -> res B) u v a b : mapM f u = Ok a -> mapM f v = Ok b -> mapM f (u ++ v) = Ok (a ++ b).
Proof.
  revert a. induction u as [|x u IH]; intros a E F; cbn in E |- *.
  - injection E as <-. exact F.
  - destruct (f x) as [y| |]; try discriminate. cbn [bind] in *. destruct (mapM f u) as [l'| |]; try discriminate. cbn [bind] in E. injection E as <-.
    rewrite (IH l' eq_refl F). reflexivity.
Qed.

(* ------------------------------------------------------------------ *)
(** Single characters and sets *)

Lemma leaf_correct fa k l token : 0 < k -> 0 <= token -> (forall x, In x l -> 0 <= x < k) ->
  shape fa 2 k true (fun s c => if (s =? 0) && set_count c l then 1 else -1) (fun s => if s =? 1 then token else -1) ->
  well_formed fa /\ get_nsymbols fa = k /\ final_accepts fa /\
  (forall w tk, recognises fa w tk <-> tk = token /\ exists x, In x l /\ w = [x]).
Proof.
  intros Hk Ht R H. assert (well_formed fa) as W.
  { apply (shape_well_formed _ _ _ _ _ _ H). split; [lia|]. split; [lia|]. split; [lia|]. split.
    - intros s c _ _. destruct ((s =? 0) && set_count c l); lia.
    - intros s _. destruct (s =? 1); lia. }
  assert (get_nsymbols fa = k) as K by apply (shape_nsym _ _ _ _ _ _ H).
  assert (forall s c, cell fa s c <> -1 -> s = 0 /\ In c l /\ cell fa s c = 1) as Cells.
  { intros s c N. destruct (cell_out fa s c W N) as [Rs Rc]. rewrite (sh_n _ _ _ _ _ _ H) in Rs.
    pose proof (sh_cell _ _ _ _ _ _ H s c Rs Rc) as E. cbn beta in E. destruct (Z.eqb_spec s 0); cbn [andb] in E; [|congruence].
    destruct (set_count c l) eqn:Sc; [|congruence]. apply set_count_In in Sc. auto. }
  assert (forall s, tok fa s <> -1 -> s = 1 /\ tok fa s = token) as Toks.
  { intros s N. destruct (tok_out fa s W N) as [Rs _]. rewrite (sh_n _ _ _ _ _ _ H) in Rs.
    pose proof (sh_tok _ _ _ _ _ _ H s Rs) as E. cbn beta in E. destruct (Z.eqb_spec s 1); [auto | congruence]. }
  split; [exact W|]. split; [exact K|]. split.
  - intros s tk x t A N S. apply accepts_tok in A as [A _]. apply step_cell in S. destruct (Toks s ltac:(congruence)) as [-> _].
    destruct (Z.eq_dec t (-1)) as [|Nt]; [assumption|]. destruct (Cells 1 x ltac:(congruence)) as [X _]. lia.
  - intros w tk. rewrite recognises_iff by exact W. split.
    + intros (s & P & T & N). destruct (Toks s ltac:(congruence)) as [-> E]. split; [congruence|].
      inversion P as [s0|s0 lb t w0 u He P2]; subst; clear P.
      assert (forall lb0 u, ~ edge fa 1 lb0 u) as Stuck.
      { intros lb0 u [Nu Hu]. destruct lb0 as [x|]; [destruct Hu as [_ Hu] | destruct Hu as [Hu|Hu]];
        match type of Hu with cell fa 1 ?c = _ => destruct (Cells 1 c ltac:(congruence)) as [X _]; lia end. }
      destruct He as [Nt He]. destruct lb as [x|].
      * destruct He as [Rx He]. destruct (Cells 0 x ltac:(congruence)) as (_ & Ix & Ex). assert (t = 1) as -> by congruence.
        apply epath_stuck in P2 as [-> _]; [|exact Stuck]. exists x. auto.
      * exfalso. destruct He as [He|He]; match type of He with cell fa 0 ?c = _ => destruct (Cells 0 c ltac:(congruence)) as (_ & Ix & _); apply R in Ix; lia end.
    + intros (-> & x & Ix & ->). exists 1. split.
      * apply (epath_move (edge fa) 0 (Some x) 1 [] 1); [|constructor]. split; [lia|]. rewrite K. split; [apply R; exact Ix|].
        rewrite (sh_cell _ _ _ _ _ _ H) by (try lia; rewrite (sh_nc _ _ _ _ _ _ H); specialize (R x Ix); lia).
        apply set_count_In in Ix. rewrite Ix. reflexivity.
      * rewrite (sh_tok _ _ _ _ _ _ H) by lia. split; [reflexivity | lia].
Qed.

Lemma symbol_set_ok : forall l acc0, ordered acc0 -> (forall c, In c l -> readable c) ->
  exists out, foldM (fun s c => x <- get_symbol c ;; Ok (set_insert x s)) l acc0 = Ok out /\ ordered out /\
  forall x, In x out <-> In x acc0 \/ exists c, In c l /\ get_symbol c = Ok x.
Proof.
  induction l as [|c l IH]; intros acc0 O R; cbn [foldM].
  - exists acc0. split; [reflexivity|]. split; [exact O|]. intros x. split; [auto|]. intros [?|(c & [] & _)]; assumption.
  - destruct (get_symbol_readable c (R c (or_introl eq_refl))) as [s Es]. rewrite Es. cbn [bind].
    destruct (IH (set_insert s acc0) (set_insert_ordered s acc0 O)) as (out & E & Oo & I); [intros; apply R; right; assumption|].
    exists out. split; [exact E|]. split; [exact Oo|]. intros x. rewrite I, set_insert_In. split.
    + intros [[->|?]|(d & Hd & Ed)]; [right; exists c; split; [left; reflexivity | exact Es] | auto | right; exists d; split; [right; exact Hd | exact Ed]].
    + intros [?|(d & [<-|Hd] & Ed)]; [auto | left; left; congruence | right; eauto].
Qed.

Lemma char_set_correct l token : 0 <= token -> (forall c, In c l -> readable c) ->
  exists fa, make_char_set_nfa l token = Ok fa /\ well_formed fa /\ get_nsymbols fa = NCHARS /\ final_accepts fa /\
  (forall sy tk, recognises fa sy tk <-> tk = token /\ exists w, mapM get_symbol w = Ok sy /\ exists c, In c l /\ w = [c]).
Proof.
  intros Ht R. unfold make_char_set_nfa.
  destruct (symbol_set_ok l [] ltac:(constructor) R) as (out & -> & O & I). cbn [bind].
  assert (forall x, In x out -> 0 <= x < NCHARS) as Rx.
  { intros x Hx. apply I in Hx as [[]|(c & _ & E)]. apply get_symbol_inv in E. tauto. }
  destruct (make_set_shape NCHARS out token ltac:(unfold NCHARS; lia) Ht (ordered_NoDup _ O) Rx) as (fa & E & H).
  destruct (leaf_correct fa NCHARS out token ltac:(unfold NCHARS; lia) Ht Rx H) as (W & K & F & L).
  exists fa. split; [exact E|]. split; [exact W|]. split; [exact K|]. split; [exact F|].
  intros sy tk. rewrite L. split; intros (-> & X); (split; [reflexivity|]).
  - destruct X as (x & Hx & ->). apply I in Hx as [[]|(c & Hc & Ec)]. exists [c]. cbn. rewrite Ec. split; [reflexivity | eauto].
  - destruct X as (w & Ew & c & Hc & ->). cbn in Ew. destruct (get_symbol c) as [x| |] eqn:Ec; try discriminate. injection Ew as <-.
    exists x. split; [|reflexivity]. apply I. right. eauto.
Qed.

Lemma char_range_correct a b token (P : Z -> Prop) : 0 <= token -> 0 <= a <= b -> b < NCHARS ->
  (forall c s, get_symbol c = Ok s -> (P c <-> a <= s <= b)) -> (forall c, P c -> readable c) ->
  exists fa, make_range_nfa NCHARS a b token = Ok fa /\ well_formed fa /\ get_nsymbols fa = NCHARS /\ final_accepts fa /\
  (forall sy tk, recognises fa sy tk <-> tk = token /\ exists w, mapM get_symbol w = Ok sy /\ exists c, P c /\ w = [c]).
Proof.
  intros Ht Hab Hb HP HR.
  destruct (make_range_shape NCHARS a b token Ht Hab Hb) as (fa & E & H).
  assert (forall x, In x (zfromto a (b + 1)) -> 0 <= x < NCHARS) as Rx by (intros x Hx; apply in_zfromto in Hx; lia).
  destruct (leaf_correct fa NCHARS (zfromto a (b + 1)) token ltac:(unfold NCHARS; lia) Ht Rx H) as (W & K & F & L).
  exists fa. split; [exact E|]. split; [exact W|]. split; [exact K|]. split; [exact F|].
  intros sy tk. rewrite L. split; intros (-> & X); (split; [reflexivity|]).
  - destruct X as (x & Hx & ->). destruct (get_char_ok x (Rx x Hx)) as (c & _ & _ & Ec). exists [c]. cbn. rewrite Ec. split; [reflexivity|].
    exists c. split; [|reflexivity]. apply (HP c x Ec). apply in_zfromto in Hx. lia.
  - destruct X as (w & Ew & c & Hc & ->). cbn in Ew. destruct (get_symbol c) as [x| |] eqn:Ec; try discriminate. injection Ew as <-.
    exists x. split; [|reflexivity]. apply in_zfromto. apply (HP c x Ec) in Hc. lia.
Qed.

Lemma insert_all_In : forall l acc0 x, In x (fold_left (fun s c => set_insert c s) l acc0) <-> In x l \/ In x acc0.
Proof.
  induction l as [|c l IH]; intros acc0 x; cbn [fold_left]; [cbn; tauto|]. rewrite IH, set_insert_In. cbn. intuition.
Qed.

Lemma item_set_In i c : In c (item_set i) <-> in_item c i.
Proof.
  destruct i as [d|a b]; cbn [item_set in_item].
  - cbn. intuition.
  - rewrite insert_all_In, in_zfromto. cbn. intuition lia.
Qed.

Lemma items_set_In items c : In c (items_set items) <-> exists i, In i items /\ in_item c i.
Proof.
  unfold items_set. assert (forall l acc0, In c (fold_left (fun s i => fold_left (fun s c => set_insert c s) (item_set i) s) l acc0) <->
    (exists i, In i l /\ in_item c i) \/ In c acc0) as X.
  { induction l as [|i l IH]; intros acc0; cbn [fold_left].
    - split; [auto|]. intros [(i & [] & _)|?]; assumption.
    - rewrite IH, insert_all_In, item_set_In. split.
      + intros [(j & Hj & E)|[E|E]]; [left; exists j; split; [right; exact Hj | exact E] | left; exists i; split; [left; reflexivity | exact E] | auto].
      + intros [(j & [<-|Hj] & E)|E]; [auto | left; eauto | auto]. }
  rewrite X. split; [|auto]. intros [?|[]]; assumption.
Qed.

Lemma negate_set_ok s : exists out, negate_set s = Ok out /\ forall c, In c out <-> readable c /\ ~ In c s.
Proof.
  unfold negate_set.
  destruct (forM_invariant (fun i out => forall c, In c out <-> (exists x, 0 <= x < i /\ get_char x = Ok c) /\ ~ In c s) NCHARS []
    (fun out symbol => c <- zget inv_chartab symbol ;; Ok (if set_count c s then out else set_insert c out))) as (out & E & I).
  - unfold NCHARS; lia.
  - intros c. split; [intros [] | intros ((x & Hx & _) & _); lia].
  - intros i out Ri I. destruct (get_char_ok i Ri) as (c & Ec & Rc & Es). pose proof Ec as Eg. unfold get_char in Eg.
    destruct (Z.leb_spec 0 i); [|lia]. destruct (Z.ltb_spec i NCHARS); [|lia]. cbn [check bind] in Eg. rewrite Eg. cbn [bind].
    eexists. split; [reflexivity|]. intros d. destruct (set_count c s) eqn:Sc.
    + apply set_count_In in Sc. rewrite I. split; intros ((x & Rx & Ex) & N); (split; [|exact N]).
      * exists x. split; [lia | exact Ex].
      * exists x. split; [|exact Ex]. destruct (Z.eq_dec x i) as [->|]; [exfalso; apply N; congruence | lia].
    + assert (~ In c s) as Nc by (rewrite <- set_count_In; congruence). rewrite set_insert_In, I. split.
      * intros [->|((x & Rx & Ex) & N)]; [split; [exists i; split; [lia | exact Ec] | exact Nc] | split; [exists x; split; [lia | exact Ex] | exact N]].
      * intros ((x & Rx & Ex) & N). destruct (Z.eq_dec x i) as [->|]; [left; congruence | right; split; [exists x; split; [lia | exact Ex] | exact N]].
  - exists out. split; [exact E|]. intros c. rewrite I. split; intros [X N]; (split; [|exact N]).
    + destruct X as (x & Rx & Ex). destruct (get_char_ok x Rx) as (d & Ed & Rd & _). congruence.
    + destruct (get_symbol_readable c X) as [x Ex]. apply get_symbol_inv in Ex as (_ & Rx & Ex). eauto.
Qed.

(* ------------------------------------------------------------------ *)
(** The whole expression *)

Definition spells (r : regex) (sy : list Z) : Prop := exists w, mapM get_symbol w = Ok sy /\ matches r w.

Lemma choose_words r : forall l, Forall (fun u => spells r u) l ->
  exists ws, mapM get_symbol (List.concat ws) = Ok (List.concat l) /\ Forall (matches r) ws /\ length ws = length l.
Proof.
  induction 1 as [|u l (w & Ew & Mw) _ (ws & E & F & L)].
  - exists []. split; [reflexivity|]. split; [constructor | reflexivity].
  - exists (w :: ws). cbn [List.concat length]. split; [apply mapM_app_intro; assumption|]. split; [constructor; assumption | congruence].
Qed.

Lemma split_words r : forall ws sy, mapM get_symbol (List.concat ws) = Ok sy -> Forall (matches r) ws ->
  exists l, sy = List.concat l /\ Forall (fun u => spells r u) l /\ length l = length ws.
Proof.
  induction ws as [|w ws IH]; intros sy E F.
  - cbn in E. injection E as <-. exists []. split; [reflexivity|]. split; [constructor | reflexivity].
  - cbn [List.concat] in E. apply mapM_app_inv in E as (a & b & -> & Ea & Eb). inversion F as [|x y M1 M2]; subst.
    destruct (IH b Eb M2) as (l & -> & Fl & Ll). exists (a :: l). split; [reflexivity|]. split; [|cbn; congruence].
    constructor; [exists w; auto | exact Fl].
Qed.

Lemma build_nfa_correct r token : regex_ok r -> 0 <= token ->
  exists fa, build_nfa r token = Ok fa /\ well_formed fa /\ get_nsymbols fa = NCHARS /\ final_accepts fa /\
  (forall sy tk, recognises fa sy tk <-> tk = token /\ spells r sy).
Proof.
  intros Hr Ht. unfold spells. induction r as [c| |items|items|a IHa b IHb|a IHa b IHb|a IHa|a IHa|a IHa]; cbn [build_nfa matches regex_ok] in *.
  - unfold make_char_single_nfa. destruct (get_symbol_readable c Hr) as [s Es]. rewrite Es. cbn [bind].
    pose proof (get_symbol_inv c s Es) as (_ & Rs & _).
    destruct (char_range_correct s s token (fun d => d = c) Ht ltac:(lia) ltac:(lia)) as (fa & E & W & K & F & L).
    { intros d t Ed. split; [intros ->; rewrite Es in Ed; injection Ed as ->; lia|]. intros X. assert (t = s) as -> by lia. eapply get_symbol_inj; eassumption. }
    { intros d ->. exact Hr. }
    exists fa. split; [exact E|]. split; [exact W|]. split; [exact K|]. split; [exact F|]. intros sy tk. rewrite L.
    split; intros (-> & w & Ew & X); (split; [reflexivity|]); exists w; (split; [exact Ew|]).
    + destruct X as (d & -> & ->). reflexivity.
    + exists c. auto.
  - destruct (char_range_correct 0 (NCHARS - 1) token readable Ht ltac:(unfold NCHARS; lia) ltac:(lia)) as (fa & E & W & K & F & L).
    { intros d t Ed. apply get_symbol_inv in Ed as (Rd & Rt & _). split; [lia | auto]. }
    { auto. }
    exists fa. split; [exact E|]. split; [exact W|]. split; [exact K|]. split; [exact F|]. exact L.
  - destruct (char_set_correct (items_set items) token Ht) as (fa & E & W & K & F & L).
    { intros c Hc. apply items_set_In in Hc as (i & Hi & Ei). eapply Hr; eassumption. }
    exists fa. split; [exact E|]. split; [exact W|]. split; [exact K|]. split; [exact F|]. intros sy tk. rewrite L.
    split; intros (-> & w & Ew & X); (split; [reflexivity|]); exists w; (split; [exact Ew|]).
    + destruct X as (c & Hc & ->). apply items_set_In in Hc as (i & Hi & Ei). eauto.
    + destruct X as (c & i & Hi & Ei & ->). exists c. split; [|reflexivity]. apply items_set_In. eauto.
  - destruct (negate_set_ok (items_set items)) as (out & -> & Io). cbn [bind].
    destruct (char_set_correct out token Ht) as (fa & E & W & K & F & L).
    { intros c Hc. apply Io in Hc. tauto. }
    exists fa. split; [exact E|]. split; [exact W|]. split; [exact K|]. split; [exact F|]. intros sy tk. rewrite L.
    split; intros (-> & w & Ew & X); (split; [reflexivity|]); exists w; (split; [exact Ew|]).
    + destruct X as (c & Hc & ->). apply Io in Hc as [Rc Nc]. exists c. split; [exact Rc|]. split; [|reflexivity].
      intros i Hi Ei. apply Nc. apply items_set_In. eauto.
    + destruct X as (c & Rc & Nc & ->). exists c. split; [|reflexivity]. apply Io. split; [exact Rc|]. intros X.
      apply items_set_In in X as (i & Hi & Ei). exact (Nc i Hi Ei).
  - destruct Hr as [Ra Rb]. destruct (IHa Ra) as (x & -> & Wx & Kx & Fx & Lx). destruct (IHb Rb) as (y & -> & Wy & Ky & Fy & Ly). cbn [bind].
    destruct (unite_correct x y Wx Wy ltac:(congruence)) as (fa & E & W & K & _ & F & L).
    exists fa. split; [exact E|]. split; [exact W|]. split; [congruence|]. split; [apply F; assumption|].
    intros sy tk. rewrite L, Lx, Ly. split.
    + intros [(-> & w & Ew & M)|(-> & w & Ew & M)]; (split; [reflexivity|]); exists w; auto.
    + intros (-> & w & Ew & [M|M]); [left | right]; (split; [reflexivity|]); eauto.
  - destruct Hr as [Ra Rb]. destruct (IHa Ra) as (x & -> & Wx & Kx & Fx & Lx). destruct (IHb Rb) as (y & -> & Wy & Ky & Fy & Ly). cbn [bind].
    destruct (concat_correct x y token Wx Wy ltac:(congruence) Ht (final_quiet x Fx)) as (fa & E & W & K & _ & F & L).
    exists fa. split; [exact E|]. split; [exact W|]. split; [congruence|]. split; [apply F; assumption|].
    intros sy tk. rewrite L. split.
    + intros (-> & u & v & -> & (t1 & R1) & (t2 & R2)). split; [reflexivity|]. apply Lx in R1 as (_ & w1 & E1 & M1). apply Ly in R2 as (_ & w2 & E2 & M2).
      exists (w1 ++ w2). split; [apply mapM_app_intro; assumption|]. eauto.
    + intros (-> & w & Ew & u & v & -> & Mu & Mv). split; [reflexivity|]. apply mapM_app_inv in Ew as (p & q & -> & Ep & Eq).
      exists p, q. split; [reflexivity|]. split; exists token; [apply Lx | apply Ly]; (split; [reflexivity|]); eauto.
  - destruct (IHa Hr) as (x & -> & Wx & Kx & Fx & Lx). cbn [bind].
    destruct (star_correct x token Wx Ht (final_quiet x Fx)) as (fa & E & W & K & _ & F & L).
    exists fa. split; [exact E|]. split; [exact W|]. split; [congruence|]. split; [exact F|].
    intros sy tk. rewrite L. split.
    + intros (-> & l & -> & Fl). split; [reflexivity|]. destruct (choose_words a l) as (ws & Ews & Fw & _).
      { eapply Forall_impl; [|exact Fl]. intros u (t & R). apply Lx in R. tauto. }
      exists (List.concat ws). split; [exact Ews|]. eauto.
    + intros (-> & w & Ew & ws & -> & Fw). split; [reflexivity|]. destruct (split_words a ws sy Ew Fw) as (l & -> & Fl & _).
      exists l. split; [reflexivity|]. eapply Forall_impl; [|exact Fl]. intros u Su. exists token. apply Lx. auto.
  - destruct (IHa Hr) as (x & -> & Wx & Kx & Fx & Lx). cbn [bind].
    destruct (plus_correct x token Wx Ht (final_quiet x Fx)) as (fa & E & W & K & _ & F & L).
    exists fa. split; [exact E|]. split; [exact W|]. split; [congruence|]. split; [exact F|].
    intros sy tk. rewrite L. split.
    + intros (-> & l & Nl & -> & Fl). split; [reflexivity|]. destruct (choose_words a l) as (ws & Ews & Fw & Lw).
      { eapply Forall_impl; [|exact Fl]. intros u (t & R). apply Lx in R. tauto. }
      exists (List.concat ws). split; [exact Ews|]. exists ws. split; [|auto]. intros ->. destruct l; [congruence | discriminate].
    + intros (-> & w & Ew & ws & Nw & -> & Fw). split; [reflexivity|]. destruct (split_words a ws sy Ew Fw) as (l & -> & Fl & Ll).
      exists l. split; [intros ->; destruct ws; [congruence | discriminate]|]. split; [reflexivity|].
      eapply Forall_impl; [|exact Fl]. intros u Su. exists token. apply Lx. auto.
  - destruct (IHa Hr) as (x & -> & Wx & Kx & Fx & Lx). cbn [bind].
    destruct (maybe_correct x token Wx Ht Fx) as (fa & E & W & K & _ & F & L).
    exists fa. split; [exact E|]. split; [exact W|]. split; [congruence|]. split; [exact F|].
    intros sy tk. rewrite L. split.
    + intros (-> & [->|(t & R)]); (split; [reflexivity|]).
      * exists []. auto.
      * apply Lx in R as (_ & w & Ew & M). eauto.
    + intros (-> & w & Ew & [->|M]); (split; [reflexivity|]).
      * left. cbn in Ew. congruence.
      * right. exists token. apply Lx. eauto.
Qed.

(* ------------------------------------------------------------------ *)
(** Deterministic automata: running is recognising *)

Lemma recognises_over fa w tk : recognises fa w tk -> over fa w.
Proof.
  intros (s & P & _). induction P as [s|s x t w u Hx _ _ _ IH|s e t w u _ _ _ _ IH]; [intros x [] | |exact IH].
  intros y [<-|Hy]; [exact Hx | apply IH; exact Hy].
Qed.

Lemma run_det fa : well_formed fa -> is_deterministic fa = true -> forall w s, over fa w -> 0 <= s < zlen (table fa) ->
  exists m, run fa s w = Ok m /\ -1 <= m /\ (m <> -1 -> exists u, epath (edge fa) s w u /\ tok fa u = m) /\
  (forall u, epath (edge fa) s w u -> tok fa u = m).
Proof.
  intros W D. pose proof (well_formed_shape fa W) as H. rewrite D in H.
  assert (forall s t, ~ edge fa s None t) as NoSil.
  { intros s t [Nt He]. destruct He as [He|He];
      match type of He with cell fa s ?c = _ => destruct (cell_out fa s c W ltac:(congruence)) as [_ X] end;
      rewrite (sh_nc _ _ _ _ _ _ H) in X; lia. }
  induction w as [|x w IH]; intros s Ov Rs; cbn [run].
  - exists (tok fa s). rewrite (shape_accepts _ _ _ _ _ _ s H Rs). split; [reflexivity|]. pose proof (tok_range fa s W). split; [lia|]. split.
    + intros _. exists s. split; [constructor | reflexivity].
    + intros u P. inversion P as [|s0 l t w0 u0 He P']; subst; [reflexivity|]. destruct l as [y|]; [discriminate|]. exfalso. exact (NoSil s t He).
  - assert (0 <= x < get_nsymbols fa) as Rx by (apply Ov; left; reflexivity).
    rewrite (shape_step _ _ _ _ _ _ s x H Rs) by lia. cbn [bind]. pose proof (cell_range fa s x W) as Rc.
    assert (forall u, epath (edge fa) s (x :: w) u -> cell fa s x <> -1 /\ epath (edge fa) (cell fa s x) w u) as Inv.
    { intros u P. inversion P as [|s0 l t w0 u0 He P' E1 E2]; subst. destruct l as [y|]; [|exfalso; exact (NoSil s t He)].
      cbn in E2. injection E2 as -> ->. destruct He as (Nt & _ & He). rewrite He. auto. }
    destruct (Z.eqb_spec (cell fa s x) (-1)) as [E|E].
    + exists (-1). split; [reflexivity|]. split; [lia|]. split; [congruence|]. intros u P. apply Inv in P. tauto.
    + destruct (IH (cell fa s x)) as (m & Em & Bm & Hm & Um); [intros y Hy; apply Ov; right; exact Hy | lia|].
      exists m. split; [exact Em|]. split; [exact Bm|]. split.
      * intros Nm. destruct (Hm Nm) as (u & P & T). exists u. split; [|exact T].
        apply (epath_move (edge fa) s (Some x) (cell fa s x) w u); [|exact P]. split; [exact E|]. auto.
      * intros u P. apply Um. apply Inv in P. tauto.
Qed.

Lemma det_recognises fa w tk : well_formed fa -> is_deterministic fa = true -> over fa w ->
  (recognises fa w tk <-> run fa 0 w = Ok tk /\ tk <> -1).
Proof.
  intros W D Ov. destruct (well_formed_good fa W) as (N0 & _). destruct (run_det fa W D w 0 Ov ltac:(lia)) as (m & Em & Bm & Hm & Um).
  rewrite recognises_iff by exact W. split.
  - intros (u & P & T & N). split; [|exact N]. rewrite Em. rewrite <- T. f_equal. symmetry. apply Um. exact P.
  - intros (E & N). rewrite Em in E. injection E as ->. destruct (Hm N) as (u & P & T). eauto.
Qed.

Lemma determinised fa : well_formed fa -> 0 < get_nsymbols fa ->
  exists d, make_deterministic fa = Ok d /\ well_formed d /\ is_deterministic d = true /\ get_nsymbols d = get_nsymbols fa /\
  forall w, over fa w -> exists m, run d 0 w = Ok m /\ -1 <= m /\ least (recognises fa w) m.
Proof.
  intros W K. destruct (is_deterministic fa) eqn:D; [|apply powerset_ok; assumption].
  exists fa. unfold make_deterministic. rewrite D. split; [reflexivity|]. split; [exact W|]. split; [reflexivity|]. split; [reflexivity|].
  intros w Ov. destruct (well_formed_good fa W) as (N0 & _). destruct (run_det fa W D w 0 Ov ltac:(lia)) as (m & Em & Bm & Hm & Um).
  exists m. split; [exact Em|]. split; [exact Bm|]. destruct (Z.eq_dec m (-1)) as [->|Nm].
  - left. split; [reflexivity|]. intros t R. apply (det_recognises fa w t W D Ov) in R as [R N]. congruence.
  - right. split; [apply (det_recognises fa w m W D Ov); auto|]. intros t R. apply (det_recognises fa w t W D Ov) in R as [R N]. rewrite R in Em. injection Em as ->. lia.
Qed.

(** determinise, then simplify *)
Lemma finished fa : well_formed fa -> 0 < get_nsymbols fa ->
  exists d, (d <- make_deterministic fa ;; simplify d) = Ok d /\ well_formed d /\ is_deterministic d = true /\ get_nsymbols d = get_nsymbols fa /\
  forall w, over fa w -> exists m, run d 0 w = Ok m /\ -1 <= m /\ least (recognises fa w) m.
Proof.
  intros W K. destruct (determinised fa W K) as (d & -> & Wd & Dd & Kd & Rd). cbn [bind].
  destruct (simplify_correct d Wd) as (o & E & Wo & Ko & Do & _ & _ & Ro & _).
  exists o. split; [exact E|]. split; [exact Wo|]. split; [congruence|]. split; [congruence|].
  intros w Ov. destruct (Rd w Ov) as (m & Em & X). exists m. split; [|exact X]. rewrite Ro; [exact Em|]. unfold over. rewrite Kd. exact Ov.
Qed.

Lemma symbols_over fa w sy : get_nsymbols fa = NCHARS -> mapM get_symbol w = Ok sy -> over fa sy.
Proof.
  intros K E x Hx. rewrite K. revert sy E Hx. induction w as [|c w IH]; intros sy E Hx; cbn in E; [injection E as <-; destruct Hx|].
  destruct (get_symbol c) as [s| |] eqn:C; try discriminate. cbn [bind] in E. destruct (mapM get_symbol w) as [sw| |]; try discriminate.
  cbn [bind] in E. injection E as <-. destruct Hx as [<-|Hx]; [apply get_symbol_inv in C; tauto | eapply IH; [reflexivity | exact Hx]].
Qed.

Lemma build_dfa_correct r token : regex_ok r -> 0 <= token ->
  exists d, build_dfa r token = Ok d /\ well_formed d /\ is_deterministic d = true /\ get_nsymbols d = NCHARS /\
  (forall sy tk, recognises d sy tk <-> tk = token /\ spells r sy) /\
  forall w sy, mapM get_symbol w = Ok sy -> (run d 0 sy = Ok token /\ matches r w) \/ (run d 0 sy = Ok (-1) /\ ~ matches r w).
Proof.
  intros Hr Ht. destruct (build_nfa_correct r token Hr Ht) as (n & En & Wn & Kn & Fn & Ln). unfold build_dfa. rewrite En. cbn [bind].
  destruct (finished n Wn ltac:(rewrite Kn; unfold NCHARS; lia)) as (d & E & Wd & Dd & Kd & Rd).
  exists d. split; [exact E|]. split; [exact Wd|]. split; [exact Dd|]. split; [congruence|].
  assert (forall w sy, mapM get_symbol w = Ok sy -> (run d 0 sy = Ok token /\ matches r w) \/ (run d 0 sy = Ok (-1) /\ ~ matches r w)) as Run.
  { intros w sy Ew. destruct (Rd sy (symbols_over n w sy Kn Ew)) as (m & Em & Bm & [[-> No]|[Yes _]]).
    - right. split; [exact Em|]. intros M. apply (No token). apply Ln. split; [reflexivity|]. exists w. auto.
    - left. apply Ln in Yes as (-> & v & Ev & M). split; [exact Em|]. rewrite (symbols_inj w v sy Ew Ev). exact M. }
  split; [|exact Run]. intros sy tk. split.
  - intros R. assert (over d sy) as Ov by (eapply recognises_over; exact R). pose proof R as R2. apply det_recognises in R2 as [R2 N]; [|assumption..].
    assert (over n sy) as On by (unfold over in *; rewrite <- Kd; exact Ov).
    destruct (Rd sy On) as (m & Em & Bm & [[-> No]|[Yes _]]); [congruence|]. rewrite R2 in Em. injection Em as ->. apply Ln. exact Yes.
  - intros (-> & w & Ew & M). apply det_recognises; [exact Wd | exact Dd | apply (symbols_over d w sy ltac:(congruence) Ew)|].
    destruct (Run w sy Ew) as [[X _]|[_ X]]; [split; [exact X | lia] | contradiction].
Qed.

Lemma build_lexer_correct rs : rs <> [] -> (forall r, In r rs -> regex_ok r) ->
  exists d, build_lexer rs = Ok d /\ well_formed d /\ is_deterministic d = true /\ get_nsymbols d = NCHARS /\
  forall w sy, mapM get_symbol w = Ok sy -> exists m, run d 0 sy = Ok m /\ first_match rs w m.
Proof.
  intros N R. destruct rs as [|r0 rest]; [congruence|]. unfold build_lexer.
  destruct (build_dfa_correct r0 0) as (d0 & E0 & W0 & D0 & K0 & L0 & _); [apply R; left; reflexivity | lia|]. rewrite E0. cbn [bind].
  assert (forall rest done lexer, (forall r, In r rest -> regex_ok r) -> well_formed lexer -> get_nsymbols lexer = NCHARS ->
    (forall sy tk, recognises lexer sy tk <-> exists r, zget done tk = Ok r /\ spells r sy) ->
    exists lexer', foldM (fun '(lexer, i) r => d <- build_dfa r i ;; u <- unite lexer d ;; Ok (u, i + 1)) rest (lexer, zlen done) = Ok (lexer', zlen (done ++ rest)) /\
    well_formed lexer' /\ get_nsymbols lexer' = NCHARS /\
    (forall sy tk, recognises lexer' sy tk <-> exists r, zget (done ++ rest) tk = Ok r /\ spells r sy)) as Loop.
  { clear. induction rest as [|r rest IH]; intros done lexer R W K L; cbn [foldM].
    - exists lexer. rewrite app_nil_r. auto.
    - pose proof (zlen_nonneg done) as Zd.
      destruct (build_dfa_correct r (zlen done)) as (d & E & Wd & Dd & Kd & Ld & _); [apply R; left; reflexivity | exact Zd|]. rewrite E. cbn [bind].
      destruct (unite_correct lexer d W Wd ltac:(congruence)) as (u & Eu & Wu & Ku & _ & _ & Lu). rewrite Eu. cbn [bind].
      destruct (IH (done ++ [r]) u) as (l' & El & Wl & Kl & Ll).
      { intros q Hq. apply R. right; exact Hq. } { exact Wu. } { congruence. }
      { intros sy tk. rewrite Lu, L, Ld. split.
        - intros [(q & G & Sq)|(-> & Sq)].
          + exists q. split; [|exact Sq]. rewrite zget_app_l by (apply zget_bounds in G; lia). exact G.
          + exists r. split; [apply zget_app_last | exact Sq].
        - intros (q & G & Sq). pose proof (zget_bounds _ _ _ G) as B. rewrite zlen_snoc in B. destruct (Z.eq_dec tk (zlen done)) as [->|Ne].
          + right. rewrite zget_app_last in G. injection G as ->. auto.
          + left. rewrite zget_app_l in G by lia. eauto. }
      rewrite <- app_assoc in El, Ll. cbn [app] in El, Ll. rewrite zlen_snoc in El. exists l'. auto. }
  destruct (Loop rest [r0] d0) as (lx & El & Wl & Kl & Ll).
  { intros q Hq. apply R. right; exact Hq. } { exact W0. } { exact K0. }
  { intros sy tk. rewrite L0. split.
    - intros (-> & X). exists r0. auto.
    - intros (q & G & X). pose proof (zget_bounds _ _ _ G) as B. change (zlen [r0]) with 1 in B. assert (tk = 0) as -> by lia. injection G as ->. auto. }
  change (zlen [r0]) with 1 in El. rewrite El. cbn [bind]. cbn [app] in Ll.
  destruct (finished lx Wl ltac:(rewrite Kl; unfold NCHARS; lia)) as (d & E & Wd & Dd & Kd & Rd).
  exists d. split; [exact E|]. split; [exact Wd|]. split; [exact Dd|]. split; [congruence|].
  intros w sy Ew. destruct (Rd sy (symbols_over lx w sy Kl Ew)) as (m & Em & Bm & Lm). exists m. split; [exact Em|].
  assert (forall r, spells r sy <-> matches r w) as Sp.
  { intros r. split; [intros (v & Ev & M); rewrite (symbols_inj w v sy Ew Ev); exact M | intros M; exists w; auto]. }
  destruct Lm as [[-> No]|[Yes Min]].
  - left. split; [reflexivity|]. intros r Hr M. apply In_nth_error in Hr as [i Hi]. apply zget_nat in Hi. apply (No (Z.of_nat i)). apply Ll. exists r. split; [exact Hi | apply Sp; exact M].
  - right. apply Ll in Yes as (r & G & S0). exists r. split; [exact G|]. split; [apply Sp; exact S0|].
    intros j q Hj Gj Mq. assert (m <= j); [|lia]. apply Min. apply Ll. exists q. split; [exact Gj | apply Sp; exact Mq].
Qed.
