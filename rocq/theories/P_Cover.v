(** Certificates that a parser makes every reduction it must ([covers]) and that its reading ends on every text.  The
    certificates are computed by iteration and then checked; only the check is proved to mean something. *)
From Verif Require Import Prelude M_Automaton M_Grammar M_Parser S_Grammar P_Parser.
Local Open Scope Z_scope.

(* ------------------------------------------------------------------ *)
(** First sets: for every symbol whether it derives nothing, and the terminals that what it derives may start with *)
Definition firsts := list (bool * list Z).
Definition first_at (fs : firsts) (x : Z) : bool * list Z := nth (Z.to_nat x) fs (false, []).
Fixpoint first_string (fs : firsts) (xs : list Z) (ts : list Z) : list Z :=
  match xs with
  | [] => ts
  | x :: xs => snd (first_at fs x) ++ (if fst (first_at fs x) then first_string fs xs ts else [])
  end.
Definition nullable (fs : firsts) (xs : list Z) : bool := forallb (fun x => fst (first_at fs x)) xs.
Definition mem (t : Z) (ts : list Z) : bool := existsb (Z.eqb t) ts.
Definition subset (a b : list Z) : bool := forallb (fun t => mem t b) a.
Definition check_firsts (g : grammar) (fs : firsts) : bool :=
  forallb (fun t => mem t (snd (first_at fs t))) (zfromto 0 (nterminals g)) &&
  forallb (fun q => implb (nullable fs (rhs q)) (fst (first_at fs (lhs q))) && subset (first_string fs (rhs q) []) (snd (first_at fs (lhs q)))) (productions g).

Lemma mem_In t ts : mem t ts = true <-> In t ts.
Proof.
  unfold mem. rewrite existsb_exists. split; [intros (u & I & E); apply Z.eqb_eq in E; subst; exact I | intros I; exists t; split; [exact I | apply Z.eqb_refl]].
Qed.
Lemma subset_In a b : subset a b = true -> forall t, In t a -> In t b.
Proof. unfold subset. rewrite forallb_forall. intros H t I. apply mem_In. apply H. exact I. Qed.
Lemma first_string_In fs xs ts t u : In t ts -> In u (first_string fs xs [t]) -> In u (first_string fs xs ts).
Proof.
  intros I. induction xs as [|x xs IH]; cbn [first_string].
  - intros [<-|[]]. exact I.
  - rewrite !in_app_iff. intros [H|H]; [left; exact H|]. right. destruct (fst (first_at fs x)); [apply IH; exact H | exact H].
Qed.

Section Firsts.
Variable g : grammar.
Variable fs : firsts.
Hypothesis C : check_firsts g fs = true.

Definition first_of (r : bool) (f : list Z) (w : list (Z * list Z)) : Prop := match w with [] => r = true | (u, _) :: _ => In u f end.

Lemma firsts_ok : (forall x t, derives g x t -> first_of (fst (first_at fs x)) (snd (first_at fs x)) (yield t)) /\
  (forall xs ts, derives_all g xs ts -> first_of (nullable fs xs) (first_string fs xs []) (yields ts)).
Proof.
  unfold check_firsts in C. apply andb_true_iff in C as [C1 C2]. rewrite forallb_forall in C1, C2. apply derives_both.
  - intros k text R. cbn. apply mem_In. apply C1. apply in_zfromto. lia.
  - intros i q ts G Nt D IH. specialize (C2 q ltac:(apply zget_In in G; exact G)). apply andb_true_iff in C2 as [N S].
    change (yield (Node i ts)) with (yields ts). unfold first_of in *. destruct (yields ts) as [|[u x] w].
    + rewrite IH in N. exact N.
    + eapply subset_In; eassumption.
  - reflexivity.
  - intros x xs t ts D IH D' IH'. unfold yields in *. cbn [map List.concat]. unfold first_of in *. cbn [nullable forallb first_string].
    destruct (yield t) as [|[u y] w]; cbn [app].
    + rewrite IH. cbn [andb]. destruct (List.concat (map yield ts)) as [|[u y] w]; [exact IH'|]. apply in_or_app. right. exact IH'.
    + apply in_or_app. left. exact IH.
Qed.

Lemma first_string_nil xs ts u : In u (first_string fs xs []) -> In u (first_string fs xs ts).
Proof.
  induction xs as [|x xs IH]; cbn [first_string]; [intros []|]. rewrite !in_app_iff. intros [H|H]; [left; exact H|]. right.
  destruct (fst (first_at fs x)); [apply IH; exact H | exact H].
Qed.
Lemma first_string_end xs ts t : nullable fs xs = true -> In t ts -> In t (first_string fs xs ts).
Proof.
  intros N I. induction xs as [|x xs IH]; cbn [first_string]; [exact I|]. cbn [nullable forallb] in N. apply andb_true_iff in N as [N1 N2].
  rewrite N1. apply in_or_app. right. apply IH. exact N2.
Qed.
Lemma starts_first xs t u ts : starts g xs t u -> In t ts -> In u (first_string fs xs ts).
Proof.
  intros (trees & text & text' & w & D & E) I. pose proof (proj2 firsts_ok _ _ D) as F. unfold first_of in F.
  destruct (yields trees) as [|[u' x] w']; cbn [app] in E; injection E as <-.
  - apply first_string_end; assumption.
  - apply first_string_nil. exact F.
Qed.
End Firsts.

(* ------------------------------------------------------------------ *)
(** Lookahead sets: for every state, items with terminals *)
Definition next (p : parser) (s x : Z) : option Z :=
  if x <? nterminals (p_grammar p) then
    match cell_get (terminal_table p) s x with Ok (Some (Shift s')) => Some s' | _ => None end
  else match cell_get (nonterminal_table p) s (x - nterminals (p_grammar p)) with Ok s' => if s' =? -1 then None else Some s' | _ => None end.
Lemma moves_next p s x s' : moves p s x s' -> next p s x = Some s'.
Proof.
  unfold next. intros [[R E]|(R & N & E)].
  - destruct (Z.ltb_spec x (nterminals (p_grammar p))); [|lia]. rewrite E. reflexivity.
  - destruct (Z.ltb_spec x (nterminals (p_grammar p))); [lia|]. rewrite E. destruct (Z.eqb_spec s' (-1)); [lia | reflexivity].
Qed.

Definition lookaheads := list (list (Z * Z * list Z)).
Definition is_item (i d : Z) (e : Z * Z * list Z) : bool := (fst (fst e) =? i) && (snd (fst e) =? d).
Definition find_in (row : list (Z * Z * list Z)) (i d : Z) : list Z := match find (is_item i d) row with Some e => snd e | None => [] end.
Definition look (la : lookaheads) (s i d : Z) : list Z := find_in (nth (Z.to_nat s) la []) i d.
Definition check_item (p : parser) (fs : firsts) (la : lookaheads) (s : Z) (e : Z * Z * list Z) : bool :=
  let '(i, d, ts) := e in
  match zget (productions (p_grammar p)) i with
  | Ok q =>
      if d =? zlen (rhs q) then
        forallb (fun t => match cell_get (terminal_table p) s t with Ok (Some (Reduce j)) => j =? i | _ => false end) ts
      else match zget (rhs q) d with
           | Ok x =>
               (match next p s x with Some s' => subset ts (look la s' i (d + 1)) | None => true end) &&
               (if x <? nterminals (p_grammar p) then true
                else let us := first_string fs (skipn (S (Z.to_nat d)) (rhs q)) ts in
                     forallb (fun '(j, r) => if lhs r =? x then subset us (look la s j 0) else true)
                       (combine (zrange (zlen (productions (p_grammar p)))) (productions (p_grammar p))))
           | _ => true
           end
  | _ => true
  end.
Definition check_lookaheads (p : parser) (fs : firsts) (la : lookaheads) : bool :=
  check_firsts (p_grammar p) fs &&
  mem (nterminals (p_grammar p) - 1) (look la 0 (zlen (productions (p_grammar p)) - 1) 0) &&
  forallb (fun '(s, row) => forallb (check_item p fs la s) row) (combine (zrange (zlen la)) la).

Lemma combine_range {A} (l : list A) i a : zget l i = Ok a -> In (i, a) (combine (zrange (zlen l)) l).
Proof.
  intros G. apply zget_ok in G as [R G].
  assert (nth_error (combine (zrange (zlen l)) l) (Z.to_nat i) = Some (i, a)) as N.
  { assert (nth_error (zrange (zlen l)) (Z.to_nat i) = Some i) as E1.
    { assert (0 <= i < zlen l) as B. { split; [exact R|]. assert (Z.to_nat i < length l)%nat by (apply nth_error_Some; congruence). unfold zlen. lia. }
      pose proof (zget_zrange (zlen l) i B) as Z1. apply zget_ok in Z1 as [_ Z1]. exact Z1. }
    revert E1 G. generalize (zrange (zlen l)). generalize (Z.to_nat i). intros n rng. revert rng n. clear R. revert i. induction l as [|b l IH]; intros i [|z zs] [|n] E1 G; cbn in *; try discriminate; [congruence|]. apply IH; auto. }
  eapply nth_error_In. exact N.
Qed.

Section Covered.
Variable p : parser.
Variable fs : firsts.
Variable la : lookaheads.
Hypothesis C : check_lookaheads p fs la = true.
Hypothesis Pos : forall s i d t, lookahead p s i d t -> 0 <= s.

Lemma look_checked s i d t : 0 <= s -> In t (look la s i d) -> exists ts, In t ts /\ ts = look la s i d /\ check_item p fs la s (i, d, ts) = true.
Proof.
  intros Hs I. unfold check_lookaheads in C. apply andb_true_iff in C as [_ C']. rewrite forallb_forall in C'.
  unfold look, find_in in *. destruct (find (is_item i d) (nth (Z.to_nat s) la [])) as [[[i' d'] ts]|] eqn:F; [|destruct I].
  cbn [snd] in I. apply find_some in F as [F E]. unfold is_item in E. cbn [fst snd] in E. apply andb_true_iff in E as [E1 E2]. apply Z.eqb_eq in E1, E2. subst i' d'.
  exists ts. split; [exact I|]. split; [reflexivity|].
  assert (zget la s = Ok (nth (Z.to_nat s) la [])) as G.
  { apply zget_ok. split; [exact Hs|]. destruct (nth_error la (Z.to_nat s)) as [row|] eqn:N; [f_equal; symmetry; apply nth_error_nth; exact N|].
    exfalso. apply nth_error_None in N. rewrite nth_overflow in F by exact N. destruct F. }
  specialize (C' _ (combine_range la s _ G)). cbn beta iota in C'. rewrite forallb_forall in C'. exact (C' _ F).
Qed.

Lemma lookahead_look s i d t : lookahead p s i d t -> In t (look la s i d).
Proof.
  intros H. pose proof C as C0. unfold check_lookaheads in C0. apply andb_true_iff in C0 as [C0 _]. apply andb_true_iff in C0 as [Cf C1].
  induction H as [|s i d t q x s' H IH G Gx M|s i d t q x j r u H IH G Gx Nx Gj El St].
  - apply mem_In. exact C1.
  - destruct (look_checked s i d t (Pos _ _ _ _ H) IH) as (ts & I & _ & K). unfold check_item in K. rewrite G in K.
    destruct (Z.eqb_spec d (zlen (rhs q))); [apply zget_bounds in Gx; lia|]. rewrite Gx in K. apply andb_true_iff in K as [K _].
    rewrite (moves_next _ _ _ _ M) in K. eapply subset_In; eassumption.
  - destruct (look_checked s i d t (Pos _ _ _ _ H) IH) as (ts & I & _ & K). unfold check_item in K. rewrite G in K.
    destruct (Z.eqb_spec d (zlen (rhs q))); [apply zget_bounds in Gx; lia|]. rewrite Gx in K. apply andb_true_iff in K as [_ K].
    destruct (Z.ltb_spec x (nterminals (p_grammar p))); [lia|]. cbn zeta in K. rewrite forallb_forall in K.
    specialize (K _ (combine_range _ _ _ Gj)). cbn beta iota in K. rewrite El, Z.eqb_refl in K. eapply subset_In; [exact K|].
    eapply starts_first; eassumption.
Qed.

Lemma checked_covers : covers p.
Proof.
  intros s i q t G H. destruct (look_checked s i _ t (Pos _ _ _ _ H) (lookahead_look _ _ _ _ H)) as (ts & I & _ & K). unfold check_item in K.
  rewrite G, Z.eqb_refl, forallb_forall in K. specialize (K t I). destruct (cell_get (terminal_table p) s t) as [[[n|j]|]| |]; try discriminate.
  apply Z.eqb_eq in K. subst. reflexivity.
Qed.
End Covered.

(* ------------------------------------------------------------------ *)
(** Ranks: numbers for the states, by terminal, that go down by more than the stack goes up at every reduction *)
Fixpoint walk (p : parser) (s : Z) (xs : list Z) : option Z :=
  match xs with
  | [] => Some s
  | x :: xs => match next p s x with Some s' => walk p s' xs | None => None end
  end.
Definition rank_at (ranks : list (list Z)) (t s : Z) : Z := nth (Z.to_nat s) (nth (Z.to_nat t) ranks []) 0.
Definition check_ranks (p : parser) (ranks : list (list Z)) : bool :=
  forallb (forallb (Z.leb 0)) ranks &&
  forallb (fun '(i, q) =>
    if i =? zlen (productions (p_grammar p)) - 1 then true
    else forallb (fun s0 =>
      match next p s0 (lhs q), walk p s0 (rhs q) with
      | Some s2, Some s => forallb (fun t =>
          match cell_get (terminal_table p) s t with
          | Ok (Some (Reduce j)) => if j =? i then rank_at ranks t s2 + 1 - zlen (rhs q) <? rank_at ranks t s else true
          | _ => true
          end) (zfromto 0 (nterminals (p_grammar p)))
      | _, _ => true
      end) (zrange (zlen (terminal_table p))))
    (combine (zrange (zlen (productions (p_grammar p)))) (productions (p_grammar p))).

Lemma walk_snoc p s xs x s' s2 : walk p s xs = Some s' -> next p s' x = Some s2 -> walk p s (xs ++ [x]) = Some s2.
Proof.
  revert s. induction xs as [|y xs IH]; intros s W N; cbn [walk app] in *; [injection W as ->; rewrite N; reflexivity|].
  destruct (next p s y); [|discriminate]. apply IH; assumption.
Qed.
Lemma rank_nonneg ranks t s : forallb (forallb (Z.leb 0)) ranks = true -> 0 <= rank_at ranks t s.
Proof.
  intros H. unfold rank_at. rewrite forallb_forall in H.
  destruct (Nat.lt_ge_cases (Z.to_nat t) (length ranks)) as [L|L].
  - pose proof (nth_In ranks [] L) as I. specialize (H _ I). rewrite forallb_forall in H.
    destruct (Nat.lt_ge_cases (Z.to_nat s) (length (nth (Z.to_nat t) ranks []))) as [L2|L2]; [|rewrite nth_overflow by exact L2; lia].
    pose proof (nth_In _ 0 L2) as I2. specialize (H _ I2). lia.
  - rewrite (nth_overflow ranks) by exact L. destruct (Z.to_nat s); cbn; lia.
Qed.

Section Ending.
Context {V : Type}.
Variable p : parser.
Variable item : Z -> Z -> Z -> Prop.
Hypothesis L : lr p item.
Variable acts : actions_of V.
Variable ranks : list (list Z).
Hypothesis C : check_ranks p ranks = true.
Let g := p_grammar p.
Let nt := nterminals g.
Let acc := zlen (productions g) - 1.

Lemma path_walk i q : zget (productions g) i = Ok q -> forall d stack vs w, path p acts stack vs w -> forall s st, stack = s :: st -> item s i (Z.of_nat d) ->
  exists s0 st0, skipn d stack = s0 :: st0 /\ walk p s0 (firstn d (rhs q)) = Some s.
Proof.
  intros Gq. induction d as [|d IH]; intros stack vs w P s st -> It.
  - exists s, st. split; reflexivity.
  - inversion P as [|s1 st1 vs1 w1 x s' t v P1 M D Ev]; subst.
    + exfalso. apply (lr_first p item L) in It. lia.
    + destruct (lr_kernel p item L _ _ _ _ _ M It) as [X|(q' & G' & Gx & It')]; [lia|].
      fold g in G'. rewrite Gq in G'. injection G' as <-. replace (Z.of_nat (S d) - 1) with (Z.of_nat d) in * by lia.
      destruct (IH _ _ _ P1 s1 st1 eq_refl It') as (s0 & st0 & Es & W). exists s0, st0. split; [exact Es|].
      assert (nth_error (rhs q) d = Some x) as Nx. { apply zget_ok in Gx as [_ Gx]. rewrite Nat2Z.id in Gx. exact Gx. }
      assert (firstn (S d) (rhs q) = firstn d (rhs q) ++ [x]) as ->.
      { clear - Nx. revert Nx. generalize (rhs q). induction d as [|d IHd]; intros [|a l] N; try discriminate; cbn in *; [injection N as <-; reflexivity|].
        f_equal. apply IHd. exact N. }
      eapply walk_snoc; [exact W|]. apply moves_next. exact M.
Qed.

Definition potential (stack : list Z) (t : Z) : Z := zlen stack + rank_at ranks t (hd 0 stack).

Lemma step_ends k x more : 0 <= k < nt ->
  (forall stack vs w, path p acts stack vs w -> exists fuel, read_tokens fuel p acts stack vs more <> Ok Reading) \/ k = nt - 1 ->
  forall n stack vs w, path p acts stack vs w -> potential stack k < Z.of_nat n -> exists fuel, read_tokens fuel p acts stack vs ((k, x) :: more) <> Ok Reading.
Proof.
  intros Rk Later. unfold check_ranks in C. apply andb_true_iff in C as [Nn C']. rewrite forallb_forall in C'.
  induction n as [|n IH]; intros stack vs w P B.
  { exfalso. unfold potential in B. pose proof (rank_nonneg ranks k (hd 0 stack) Nn). pose proof (zlen_nonneg stack). lia. }
  destruct (path_inv p item L acts _ _ _ P) as (s & st & -> & Rs & Len).
  destruct (lr_actions p item L s k Rs Rk) as (a & Ea). destruct a as [[s'|i]|].
  - (* shift *)
    destruct (at_shift acts k x) as [v|] eqn:Ev.
    2:{ exists 1%nat. cbn [read_tokens]. rewrite Ea. cbn [bind]. rewrite Ev. discriminate. }
    destruct Later as [Later| ->].
    + destruct (Later (s' :: s :: st) (v :: vs) (w ++ [(k, x)])) as (fuel & E).
      { change [(k, x)] with (yield (Leaf k x)). apply (path_move p acts s st vs w k s' (Leaf k x) v P).
        - left. split; assumption.
        - constructor. exact Rk.
        - exact Ev. }
      exists (S fuel). cbn [read_tokens]. rewrite Ea. cbn [bind]. rewrite Ev. cbn [execute_action bind]. exact E.
    + exfalso. eapply (P_Parser.end_not_shifted p item L). exact Ea.
  - (* reduce *)
    destruct (lr_reduce p item L _ _ _ Ea) as ((q & Gq & It) & Hend). fold g in Gq.
    destruct (path_item p item L acts i q Gq (length (rhs q)) _ _ _ P s st eq_refl It) as (ts & w0 & s0 & st0 & D0 & _ & Ev0 & Lv & Ew & Es & P0 & I0).
    rewrite firstn_all in D0.
    destruct (path_walk i q Gq (length (rhs q)) _ _ _ P s st eq_refl It) as (s0' & st0' & Es' & W). rewrite firstn_all in W.
    rewrite Es in Es'. injection Es' as <- <-.
    destruct (Z.eqb_spec i acc) as [Ei|Ni].
    { exists 1%nat. cbn [read_tokens]. rewrite Ea. cbn [bind]. unfold get_accept_production. fold g. fold acc. rewrite (proj2 (Z.eqb_eq i acc) Ei).
      destruct (zlen vs =? 1); cbn [check bind]; [destruct vs; discriminate | discriminate]. }
    destruct (lr_origin p item L _ _ _ I0 Gq) as [X|(i' & d' & q' & I' & G' & Gx & Rl)]; [unfold acc, g in Ni; lia|].
    destruct (lr_goto p item L _ _ _ _ _ I' G' Gx) as (s2 & M2).
    assert (cell_get (nonterminal_table p) s0 (as_nonterminal g (lhs q)) = Ok s2) as Eg.
    { destruct M2 as [[X _]|(_ & _ & X)]; [fold g nt in X, Rl; lia | exact X]. }
    destruct (at_reduce acts i (rev (firstn (length (rhs q)) vs))) as [v|] eqn:Ev.
    2:{ exists 1%nat. cbn [read_tokens]. rewrite Ea. cbn [bind]. unfold get_accept_production. fold g. fold acc. destruct (Z.eqb_spec i acc); [contradiction|].
        replace (vget (productions g) i) with (Ok q) by (symmetry; apply vget_ok; exact Gq). cbn [bind].
        rewrite pop_skipn by exact Lv. cbn [bind]. rewrite Ev. discriminate. }
    destruct (IH (s2 :: s0 :: st0) (v :: skipn (length (rhs q)) vs) (w0 ++ yield (Node i ts))) as (fuel & E).
    { apply (path_move p acts s0 st0 _ w0 (lhs q) s2 (Node i ts) v P0 M2).
      - apply derives_node; assumption.
      - cbn [value]. change (fold_right _ _ ts) with (values acts ts). rewrite Ev0. exact Ev. }
    { assert (0 <= s0 < zlen (terminal_table p)) as R0 by (apply (lr_range p item L _ _ _ I0)).
      specialize (C' _ (combine_range _ _ _ Gq)). cbn beta iota in C'. fold g acc in C'.
      destruct (Z.eqb_spec i acc) as [X|_]; [contradiction|]. rewrite forallb_forall in C'. specialize (C' s0 ltac:(apply in_zrange; exact R0)).
      rewrite (moves_next _ _ _ _ M2), W, forallb_forall in C'. specialize (C' k ltac:(apply in_zfromto; fold g nt; lia)). rewrite Ea, Z.eqb_refl in C'.
      apply Z.ltb_lt in C'. unfold potential in *. cbn [hd] in *. rewrite !zlen_cons in *.
      assert (zlen (s :: st) = zlen (s0 :: st0) + zlen (rhs q)) as X.
      { rewrite <- Es. unfold zlen. rewrite skipn_length. assert (length (rhs q) <= length (s :: st))%nat by (cbn [length] in Len |- *; lia). lia. }
      rewrite !zlen_cons in X. lia. }
    exists (S fuel). cbn [read_tokens]. rewrite Ea. cbn [bind]. unfold get_accept_production. fold g. fold acc. destruct (Z.eqb_spec i acc); [contradiction|].
    replace (vget (productions g) i) with (Ok q) by (symmetry; apply vget_ok; exact Gq). cbn [bind].
    rewrite pop_skipn by exact Lv. cbn [bind]. rewrite Ev.
    unfold execute_action. fold g. replace (vget (productions g) i) with (Ok q) by (symmetry; apply vget_ok; exact Gq). cbn [bind].
    rewrite pop_skipn by (cbn [length] in Len |- *; lia). rewrite Es. cbn [bind]. rewrite Eg. cbn [bind]. exact E.
  - exists 1%nat. cbn [read_tokens]. rewrite Ea. discriminate.
Qed.

Lemma reading_ends tokens : tokens_of g tokens -> exists fuel, read_all fuel p acts tokens <> Ok Reading.
Proof.
  intros T. assert (forall stack vs w, path p acts stack vs w -> exists fuel, read_tokens fuel p acts stack vs (tokens ++ [(nt - 1, [])]) <> Ok Reading) as H.
  { destruct (aug_counts g (lr_aug p item L)) as [C1 C2]. fold nt in C1, C2. induction T as [|[k x] tokens T1 T2 IH]; intros stack vs w P; cbn [app].
    - eapply (step_ends (nt - 1) [] []); [lia | right; reflexivity | exact P |].
      instantiate (1 := Z.to_nat (potential stack (nt - 1) + 1)). lia.
    - eapply (step_ends k x (tokens ++ [(nt - 1, [])])); [fold nt in T1; lia | left; exact IH | exact P |].
      instantiate (1 := Z.to_nat (potential stack k + 1)). lia. }
  exact (H [0] [] [] (path_start p acts)).
Qed.
End Ending.

(** Once reading has ended, more steps change nothing. *)
Lemma read_more {V} p (acts : actions_of V) fuel : forall stack vs tokens r k, read_tokens fuel p acts stack vs tokens = Ok r -> r <> Reading ->
  read_tokens (fuel + k) p acts stack vs tokens = Ok r.
Proof.
  induction fuel as [|fuel IH]; intros stack vs tokens r k E N; cbn [read_tokens Nat.add] in *; [congruence|].
  destruct tokens as [|[t x] rest]; [exact E|]. destruct stack as [|s st]; [exact E|].
  apply bind_ok in E as (a & Ea & E). rewrite Ea. cbn [bind]. destruct a as [[s'|i]|]; [| |exact E].
  - destruct (at_shift acts t x); [|exact E]. apply bind_ok in E as (st' & Es & E). rewrite Es. cbn [bind]. apply IH; assumption.
  - destruct (i =? get_accept_production (p_grammar p)); [exact E|]. apply bind_ok in E as (q & Eq & E). rewrite Eq. cbn [bind].
    apply bind_ok in E as (below & Eb & E). rewrite Eb. cbn [bind]. destruct (at_reduce acts i _); [|exact E].
    apply bind_ok in E as (st' & Es & E). rewrite Es. cbn [bind]. apply IH; assumption.
Qed.

(* ------------------------------------------------------------------ *)
(** Computing certificates *)
Fixpoint times {A} (n : nat) (f : A -> A) (a : A) : A := match n with O => a | S n => times n f (f a) end.
Definition union (a b : list Z) : list Z := fold_left (fun l t => if mem t l then l else t :: l) a b.
Definition update {A} (l : list A) (k : Z) (f : A -> A) : list A :=
  let n := Z.to_nat k in firstn n l ++ match skipn n l with [] => [] | a :: r => f a :: r end.
Definition compute_firsts (rounds : nat) (g : grammar) : firsts :=
  times rounds (fun fs => fold_left (fun fs q => update fs (lhs q) (fun '(b, f) =>
      (b || nullable fs (rhs q), union (first_string fs (rhs q) []) f))) (productions g) fs)
    (map (fun x => if x <? nterminals g then (false, [x]) else (false, [])) (zrange (nsymbols g))).
Fixpoint add_to (row : list (Z * Z * list Z)) (i d : Z) (ts : list Z) : list (Z * Z * list Z) :=
  match row with
  | [] => [(i, d, ts)]
  | e :: row => if is_item i d e then (i, d, union ts (snd e)) :: row else e :: add_to row i d ts
  end.
Definition grow_item (p : parser) (fs : firsts) (s : Z) (la : lookaheads) (e : Z * Z * list Z) : lookaheads :=
  let '(i, d, ts) := e in
  match zget (productions (p_grammar p)) i with
  | Ok q =>
      match zget (rhs q) d with
      | Ok x =>
          let la := match next p s x with Some s' => update la s' (fun row => add_to row i (d + 1) ts) | None => la end in
          if x <? nterminals (p_grammar p) then la
          else let us := first_string fs (skipn (S (Z.to_nat d)) (rhs q)) ts in
               update la s (fun row => fold_left (fun row '(j, r) => if lhs r =? x then add_to row j 0 us else row)
                 (combine (zrange (zlen (productions (p_grammar p)))) (productions (p_grammar p))) row)
      | _ => la
      end
  | _ => la
  end.
Definition compute_lookaheads (rounds : nat) (p : parser) (fs : firsts) : lookaheads :=
  times rounds (fun la => fold_left (fun la s => fold_left (grow_item p fs s) (nth (Z.to_nat s) la []) la) (zrange (zlen (terminal_table p))) la)
    ([(zlen (productions (p_grammar p)) - 1, 0, [nterminals (p_grammar p) - 1])] :: repeat [] (Z.to_nat (zlen (terminal_table p)) - 1)).
Definition compute_ranks (rounds : nat) (p : parser) : list (list Z) :=
  let arcs := flat_map (fun '(i, q) => if i =? zlen (productions (p_grammar p)) - 1 then [] else
      flat_map (fun s0 => match next p s0 (lhs q), walk p s0 (rhs q) with Some s2, Some s => [(i, s, s2, zlen (rhs q))] | _, _ => [] end)
        (zrange (zlen (terminal_table p)))) (combine (zrange (zlen (productions (p_grammar p)))) (productions (p_grammar p))) in
  map (fun t =>
    let arcs := filter (fun '(i, s, s2, n) => match cell_get (terminal_table p) s t with Ok (Some (Reduce j)) => j =? i | _ => false end) arcs in
    times rounds (fun r => fold_left (fun r '(i, s, s2, n) => update r s (Z.max (nth (Z.to_nat s2) r 0 + 2 - n))) arcs r)
      (repeat 0 (Z.to_nat (zlen (terminal_table p))))) (zfromto 0 (nterminals (p_grammar p))).

(** what a certificate is: first sets, lookaheads and ranks that pass the checks *)
Record certificate := mk_certificate { c_firsts : firsts; c_lookaheads : lookaheads; c_ranks : list (list Z) }.
Definition certified (c : certificate) (p : parser) : bool := check_lookaheads p (c_firsts c) (c_lookaheads c) && check_ranks p (c_ranks c).
Definition certify (rounds : nat) (p : parser) : certificate :=
  let fs := compute_firsts rounds (p_grammar p) in mk_certificate fs (compute_lookaheads rounds p fs) (compute_ranks rounds p).
