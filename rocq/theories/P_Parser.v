(** What a parser reads when its tables come from sets of configurations. *)
From Verif Require Import Prelude M_Automaton M_Grammar M_Parser S_Grammar.
Local Open Scope Z_scope.

Scheme derives_mind := Minimality for derives Sort Prop
  with derives_all_mind := Minimality for derives_all Sort Prop.
Combined Scheme derives_both from derives_mind, derives_all_mind.

(** The tables, and the items (production and dot) behind the states *)
Record lr (p : parser) (item : Z -> Z -> Z -> Prop) : Prop := {
  lr_aug : augmented (p_grammar p);
  lr_actions : forall s t, 0 <= s < zlen (terminal_table p) -> 0 <= t < nterminals (p_grammar p) ->
      exists a, cell_get (terminal_table p) s t = Ok a;
  lr_range : forall s i d, item s i d -> 0 <= s < zlen (terminal_table p) /\
      exists q, zget (productions (p_grammar p)) i = Ok q /\ 0 <= d <= zlen (rhs q);
  lr_start : item 0 (zlen (productions (p_grammar p)) - 1) 0;
  lr_first : forall i d, item 0 i d -> d = 0;
  lr_start_only : forall s, item s (zlen (productions (p_grammar p)) - 1) 0 -> s = 0;
  lr_close : forall s i d q x j r, item s i d -> zget (productions (p_grammar p)) i = Ok q -> zget (rhs q) d = Ok x ->
      nterminals (p_grammar p) <= x -> zget (productions (p_grammar p)) j = Ok r -> lhs r = x -> item s j 0;
  lr_origin : forall s j r, item s j 0 -> zget (productions (p_grammar p)) j = Ok r ->
      j = zlen (productions (p_grammar p)) - 1 \/
      exists i d q, item s i d /\ zget (productions (p_grammar p)) i = Ok q /\ zget (rhs q) d = Ok (lhs r) /\ nterminals (p_grammar p) <= lhs r;
  lr_goto : forall s i d q x, item s i d -> zget (productions (p_grammar p)) i = Ok q -> zget (rhs q) d = Ok x -> exists s', moves p s x s';
  lr_next : forall s i d q x s', item s i d -> zget (productions (p_grammar p)) i = Ok q -> zget (rhs q) d = Ok x -> moves p s x s' -> item s' i (d + 1);
  lr_kernel : forall s x s' i d, moves p s x s' -> item s' i d -> d = 0 \/
      exists q, zget (productions (p_grammar p)) i = Ok q /\ zget (rhs q) (d - 1) = Ok x /\ item s i (d - 1);
  lr_target : forall s x s', moves p s x s' -> s' <> 0 /\ 0 <= s' < zlen (terminal_table p);
  lr_moves : forall s x s', moves p s x s' -> exists i d q, item s i d /\ zget (productions (p_grammar p)) i = Ok q /\ zget (rhs q) d = Ok x;
  lr_reduce : forall s t i, cell_get (terminal_table p) s t = Ok (Some (Reduce i)) ->
      (exists q, zget (productions (p_grammar p)) i = Ok q /\ item s i (zlen (rhs q))) /\
      (i = zlen (productions (p_grammar p)) - 1 -> t = nterminals (p_grammar p) - 1) }.

Lemma pop_skipn {A} n (l : list A) : (n <= length l)%nat -> pop n l = Ok (skipn n l).
Proof. revert l. induction n as [|n IH]; intros [|a l] H; cbn in *; try reflexivity; try lia. apply IH. lia. Qed.

Lemma moves_fun p s x s1 s2 : moves p s x s1 -> moves p s x s2 -> s1 = s2.
Proof. intros [[R1 E1]|(R1 & N1 & E1)] [[R2 E2]|(R2 & N2 & E2)]; try lia; rewrite E1 in E2; congruence. Qed.

Lemma values_app {V} (acts : actions_of V) a b :
  values acts (a ++ b) = match values acts a, values acts b with Some x, Some y => Some (x ++ y) | _, _ => None end.
Proof.
  induction a as [|t a IH]; [cbn [app]; change (values acts []) with (@Some (list V) []); destruct (values acts b); reflexivity|].
  change (values acts ((t :: a) ++ b)) with (match value acts t, values acts (a ++ b) with Some v, Some vs => Some (v :: vs) | _, _ => None end).
  change (values acts (t :: a)) with (match value acts t, values acts a with Some v, Some vs => Some (v :: vs) | _, _ => None end).
  rewrite IH. destruct (value acts t), (values acts a), (values acts b); reflexivity.
Qed.
Lemma yields_app a b : yields (a ++ b) = yields a ++ yields b.
Proof. unfold yields. rewrite map_app, concat_app. reflexivity. Qed.
Lemma derives_all_app g a b xs ys : derives_all g xs a -> derives_all g ys b -> derives_all g (xs ++ ys) (a ++ b).
Proof. intros H. revert b ys. induction H; intros b ys' Hb; cbn; [exact Hb|]. constructor; auto. Qed.
Lemma derives_all_length g xs ts : derives_all g xs ts -> length xs = length ts.
Proof. induction 1; cbn; congruence. Qed.
Lemma vget_ok {A} (l : list A) i a : vget l i = Ok a <-> zget l i = Ok a.
Proof.
  unfold vget. split; intros H.
  - apply bind_ok in H as (u & _ & H). exact H.
  - assert (0 <= i < zlen l) by (apply zget_bounds in H; exact H). replace ((0 <=? i) && (i <? zlen l)) with true; [exact H|]. symmetry. apply andb_true_iff. split; [apply Z.leb_le | apply Z.ltb_lt]; lia.
Qed.

Section Reading.
Context {V : Type}.
Variable p : parser.
Variable item : Z -> Z -> Z -> Prop.
Hypothesis L : lr p item.
Variable acts : actions_of V.
Let g := p_grammar p.
Let nt := nterminals g.
Let acc := zlen (productions g) - 1.

Local Lemma acc_prod : exists goal, zget (productions g) acc = Ok (mk_production (nsymbols g - 1) [goal]) /\ nt <= goal < nsymbols g - 1.
Proof.
  destruct (aug_accept g (lr_aug p item L)) as (ps & goal & E & Hg & _). exists goal. unfold acc.
  assert (zget (productions g) (zlen (productions g) - 1) = Ok (mk_production (nsymbols g - 1) [goal])) as G.
  { rewrite E, zlen_app, zlen_cons, zlen_nil. replace (zlen ps + (0 + 1) - 1) with (zlen ps) by lia.
    rewrite zget_app_r by lia. replace (zlen ps - zlen ps) with 0 by lia. reflexivity. }
  split; [exact G|]. split; [exact Hg|].
  destruct (aug_rhs g (lr_aug p item L) (mk_production (nsymbols g - 1) [goal]) goal) as [X _]; [rewrite E; apply in_or_app; right; left; reflexivity | left; reflexivity | lia].
Qed.

Local Lemma lhs_accept i q : zget (productions g) i = Ok q -> lhs q = nsymbols g - 1 -> i = acc.
Proof.
  destruct (aug_accept g (lr_aug p item L)) as (ps & goal & E & Hg & U). intros G El. unfold acc. rewrite E in *.
  assert (0 <= i < zlen (ps ++ [mk_production (nsymbols g - 1) [goal]])) as B by (apply zget_bounds in G; exact G).
  rewrite zlen_app, zlen_cons, zlen_nil in B |- *. destruct (Z.eq_dec i (zlen ps)); [lia|]. exfalso.
  rewrite zget_app_l in G by lia. apply zget_In in G. exact (U q G El).
Qed.

(** The stacks of the parser: each state on top of another comes from a move on a symbol, for which there is a tree with
    the value on the stack of values; the trees yield what has been read. *)
Inductive path : list Z -> list V -> list (Z * list Z) -> Prop :=
| path_start : path [0] [] []
| path_move s st vs w x s' t v : path (s :: st) vs w -> moves p s x s' -> derives g x t -> value acts t = Some v ->
    path (s' :: s :: st) (v :: vs) (w ++ yield t).

Lemma path_inv stack vs w : path stack vs w ->
  exists s st, stack = s :: st /\ 0 <= s < zlen (terminal_table p) /\ length stack = S (length vs).
Proof.
  induction 1 as [|s st vs w x s' t v P (s0 & st0 & E & R & Len) M D Ev].
  - exists 0, []. split; [reflexivity|]. split; [|reflexivity]. apply (lr_range p item L _ _ _ (lr_start p item L)).
  - exists s', (s :: st). split; [reflexivity|]. split; [apply (lr_target p item L _ _ _ M)|]. cbn [length] in *. lia.
Qed.

(** Under an item lie the trees of what precedes its dot. *)
Lemma path_item i q : zget (productions g) i = Ok q -> forall d stack vs w, path stack vs w -> forall s st, stack = s :: st -> item s i (Z.of_nat d) ->
  exists ts w0 s0 st0, derives_all g (firstn d (rhs q)) ts /\ (d <= length (rhs q))%nat /\ values acts ts = Some (rev (firstn d vs)) /\ (d <= length vs)%nat /\
    w = w0 ++ yields ts /\ skipn d stack = s0 :: st0 /\ path (s0 :: st0) (skipn d vs) w0 /\ item s0 i 0.
Proof.
  intros Gq. induction d as [|d IH]; intros stack vs w P s st -> It.
  - exists [], w, s, st. cbn [firstn skipn rev values fold_right yields map]. rewrite app_nil_r. repeat split; try constructor; try lia; try assumption.
  - inversion P as [|s1 st1 vs1 w1 x s' t v P1 M D Ev]; subst.
    + exfalso. apply (lr_first p item L) in It. lia.
    + destruct (lr_kernel p item L _ _ _ _ _ M It) as [X|(q' & G' & Gx & It')]; [lia|].
      fold g in G'. rewrite Gq in G'. injection G' as <-. replace (Z.of_nat (S d) - 1) with (Z.of_nat d) in * by lia.
      destruct (IH (s1 :: st1) vs1 w1 P1 s1 st1 eq_refl It') as (ts & w0 & s0 & st0 & D0 & Ld & Ev0 & Lv & Ew & Es & P0 & I0).
      assert (nth_error (rhs q) d = Some x) as Nx. { apply zget_ok in Gx as [_ Gx]. rewrite Nat2Z.id in Gx. exact Gx. }
      assert (firstn (S d) (rhs q) = firstn d (rhs q) ++ [x]) as Ef.
      { clear - Nx. revert Nx. generalize (rhs q). induction d as [|d IHd]; intros [|a l] N; try discriminate; cbn in *; [injection N as <-; reflexivity|].
        f_equal. apply IHd. exact N. }
      exists (ts ++ [t]), w0, s0, st0. rewrite Ef. split; [|split; [|split; [|split; [|split; [|split; [|split]]]]]].
      * apply derives_all_app; [exact D0|]. constructor; [exact D | constructor].
      * apply nth_error_Some. congruence.
      * rewrite values_app, Ev0. cbn [values fold_right]. rewrite Ev. cbn [firstn rev]. reflexivity.
      * cbn. lia.
      * rewrite yields_app. cbn [yields map List.concat]. rewrite app_nil_r, Ew, app_assoc. reflexivity.
      * exact Es.
      * exact P0.
      * exact I0.
Qed.

Local Lemma end_not_shifted s s' : cell_get (terminal_table p) s (nt - 1) = Ok (Some (Shift s')) -> False.
Proof.
  intros E. destruct (aug_counts g (lr_aug p item L)) as [C1 C2].
  destruct (lr_moves p item L s (nt - 1) s') as (i & d & q & _ & G & Gx).
  { left. fold g nt. split; [fold nt in C1; lia | exact E]. }
  apply zget_In in G. apply zget_In in Gx. destruct (aug_rhs g (lr_aug p item L) q (nt - 1) G Gx) as [_ X]. fold nt in X. lia.
Qed.

Lemma read_sound_from fuel : forall stack vs w rest, path stack vs w -> tokens_of g rest ->
  exists verdict, read_tokens fuel p acts stack vs (rest ++ [(nt - 1, [])]) = Ok verdict /\
    forall v, verdict = Read v -> exists t, parses g t (w ++ rest) /\ value acts t = Some v.
Proof.
  induction fuel as [|fuel IH]; intros stack vs w rest P T.
  - exists Reading. split; [reflexivity | discriminate].
  - destruct (path_inv _ _ _ P) as (s & st & -> & Rs & Len).
    destruct (aug_counts g (lr_aug p item L)) as [C1 C2].
    assert (exists k x more, rest ++ [(nt - 1, [])] = (k, x) :: more /\ 0 <= k < nt /\
      ((k = nt - 1 /\ rest = []) \/ (exists rest', rest = (k, x) :: rest' /\ more = rest' ++ [(nt - 1, [])] /\ tokens_of g rest'))) as (k & x & more & Er & Rk & Cases).
    { destruct rest as [|[k x] rest'].
      - exists (nt - 1), [], []. split; [reflexivity|]. split; [fold nt in C1; lia|]. left. auto.
      - inversion T as [|? ? T1 T2]; subst. exists k, x, (rest' ++ [(nt - 1, [])]). split; [reflexivity|].
        split; [fold nt in T1; lia|]. right. exists rest'. auto. }
    rewrite Er. cbn [read_tokens].
    destruct (lr_actions p item L s k Rs Rk) as (a & Ea). rewrite Ea. cbn [bind].
    destruct a as [[n|i]|].
    + (* shift *)
      destruct Cases as [[-> _]|(rest' & -> & -> & T')]; [exfalso; eapply end_not_shifted; exact Ea|].
      destruct (at_shift acts k x) as [v|] eqn:Ev.
      2:{ exists Refused. split; [reflexivity | discriminate]. }
      cbn [execute_action bind].
      destruct (IH (n :: s :: st) (v :: vs) (w ++ [(k, x)]) rest') as (vd & E & Hv).
      { change [(k, x)] with (yield (Leaf k x)). apply (path_move s st vs w k n (Leaf k x) v P).
        - left. split; assumption.
        - constructor. exact Rk.
        - exact Ev. }
      { exact T'. }
      exists vd. split; [exact E|]. intros v' Hv'. destruct (Hv v' Hv') as (t & Pt & Vt). exists t. split; [|exact Vt].
      rewrite <- app_assoc in Pt. exact Pt.
    + (* reduce *)
      destruct (lr_reduce p item L _ _ _ Ea) as ((q & Gq & It) & Hend). fold g in Gq.
      assert (exists ts w0 s0 st0, derives_all g (rhs q) ts /\ values acts ts = Some (rev (firstn (length (rhs q)) vs)) /\ (length (rhs q) <= length vs)%nat /\
        w = w0 ++ yields ts /\ skipn (length (rhs q)) (s :: st) = s0 :: st0 /\ path (s0 :: st0) (skipn (length (rhs q)) vs) w0 /\ item s0 i 0) as
        (ts & w0 & s0 & st0 & D0 & Ev0 & Lv & Ew & Es & P0 & I0).
      { destruct (path_item i q Gq (length (rhs q)) _ _ _ P s st eq_refl It) as (ts & w0 & s0 & st0 & D0 & _ & R). rewrite firstn_all in D0. exists ts, w0, s0, st0. tauto. }
      unfold get_accept_production. fold g. fold acc. destruct (Z.eqb_spec i acc) as [Ei|Ni].
      * (* accept *)
        assert (k = nt - 1) as -> by (apply Hend; exact Ei).
        assert (rest = []) as Erest.
        { destruct Cases as [[_ X]|(rest' & -> & _)]; [exact X|]. inversion T as [|? ? T1 T2]; subst. cbn in T1. fold nt in T1. lia. }
        destruct acc_prod as (goal & Ga & Rg). rewrite Ei in *. fold acc in Gq. rewrite Gq in Ga. injection Ga as ->. cbn [rhs length lhs] in *.
        apply (lr_start_only p item L) in I0. subst s0.
        assert (vs <> []) as Nv by (destruct vs; [cbn in Lv; lia | discriminate]).
        destruct vs as [|v vs]; [congruence|]. cbn [skipn] in *.
        assert (vs = [] /\ w0 = []) as [-> ->].
        { inversion P0 as [|s1 st1 vs1 w1 x1 s' t1 v1 P1 M1 D1 E1]; subst; [auto|]. exfalso. apply (lr_target p item L) in M1. lia. }
        change (zlen [v]) with 1. cbn [Z.eqb check bind]. exists (Read v). split; [reflexivity|].
        intros v' X. injection X as <-. inversion D0 as [|? ? t ts' Dt Dn]; subst. inversion Dn; subst.
        exists t. split.
        -- split.
           ++ exists goal. split; [|exact Dt]. exists (mk_production (nsymbols g - 1) [goal]). split; [exact Gq | reflexivity].
           ++ cbn [yields map List.concat app]. rewrite !app_nil_r. reflexivity.
        -- cbn [values fold_right firstn rev app] in Ev0. destruct (value acts t); [injection Ev0 as ->; reflexivity | discriminate].
      * (* another production *)
        assert (nt <= lhs q) as Rl.
        { destruct (lr_origin p item L _ _ _ I0 Gq) as [X|(_ & _ & _ & _ & _ & _ & X)]; [unfold acc, g in Ni; lia | exact X]. }
        replace (vget (productions g) i) with (Ok q) by (symmetry; apply vget_ok; exact Gq). cbn [bind].
        rewrite pop_skipn by exact Lv. cbn [bind].
        destruct (at_reduce acts i (rev (firstn (length (rhs q)) vs))) as [v|] eqn:Ev.
        2:{ exists Refused. split; [reflexivity | discriminate]. }
        unfold execute_action. fold g. replace (vget (productions g) i) with (Ok q) by (symmetry; apply vget_ok; exact Gq). cbn [bind].
        rewrite pop_skipn by (cbn [length] in Len |- *; lia). rewrite Es. cbn [bind].
        destruct (lr_origin p item L _ _ _ I0 Gq) as [X|(i' & d' & q' & I' & G' & Gx & _)]; [unfold acc, g in Ni; lia|].
        destruct (lr_goto p item L _ _ _ _ _ I' G' Gx) as (s2 & M2).
        assert (cell_get (nonterminal_table p) s0 (as_nonterminal g (lhs q)) = Ok s2) as Eg.
        { destruct M2 as [[X _]|(_ & _ & X)]; [fold g nt in X; lia | exact X]. }
        rewrite Eg. cbn [bind].
        destruct (IH (s2 :: s0 :: st0) (v :: skipn (length (rhs q)) vs) (w0 ++ yield (Node i ts)) rest) as (vd & E & Hv).
        { apply (path_move s0 st0 _ w0 (lhs q) s2 (Node i ts) v P0 M2).
          - apply derives_node; assumption.
          - cbn [value]. change (fold_right _ _ ts) with (values acts ts). rewrite Ev0. exact Ev. }
        { exact T. }
        rewrite <- Er. exists vd. split; [exact E|]. intros v' Hv'. destruct (Hv v' Hv') as (t & Pt & Vt). exists t. split; [|exact Vt].
        cbn [yield] in Pt. fold (yields ts) in Pt. rewrite <- Ew in Pt. exact Pt.
    + exists Refused. split; [reflexivity | discriminate].
Qed.

Lemma read_sound fuel tokens : tokens_of g tokens ->
  exists verdict, read_all fuel p acts tokens = Ok verdict /\
    forall v, verdict = Read v -> exists t, parses g t tokens /\ value acts t = Some v.
Proof. intros T. exact (read_sound_from fuel [0] [] [] tokens path_start T). Qed.

(* ------------------------------------------------------------------ *)
(** Completeness *)
Hypothesis Cover : covers p.

Lemma lookahead_item s i d t : lookahead p s i d t -> item s i d.
Proof.
  induction 1 as [|s i d t q x s' H IH G Gx M|s i d t q x j r u H IH G Gx Nx Gj El St].
  - apply (lr_start p item L).
  - eapply (lr_next p item L); eassumption.
  - eapply (lr_close p item L); eassumption.
Qed.

Definition reads_tree (x : Z) (tr : tree) : Prop :=
  x <> nsymbols g - 1 -> forall s s' st vs u xu rest, moves p s x s' ->
  (nt <= x -> forall j r, zget (productions g) j = Ok r -> lhs r = x -> lookahead p s j 0 u) ->
  exists n, forall k, read_tokens (n + k) p acts (s :: st) vs (yield tr ++ (u, xu) :: rest) =
    match value acts tr with Some v => read_tokens k p acts (s' :: s :: st) (v :: vs) ((u, xu) :: rest) | None => Ok Refused end.
Definition reads_forest (xs : list Z) (ts : list tree) : Prop :=
  forall i q d s t xt st vs rest, zget (productions g) i = Ok q -> skipn d (rhs q) = xs -> (d <= length (rhs q))%nat ->
  lookahead p s i (Z.of_nat d) t ->
  exists n s' st', skipn (length ts) (s' :: st') = s :: st /\ lookahead p s' i (zlen (rhs q)) t /\
    forall k, read_tokens (n + k) p acts (s :: st) vs (yields ts ++ (t, xt) :: rest) =
      match values acts ts with
      | Some vv => read_tokens k p acts (s' :: st') (rev vv ++ vs) ((t, xt) :: rest)
      | None => Ok Refused
      end.

Local Lemma skipn_cons {A} d (l : list A) x xs : skipn d l = x :: xs -> nth_error l d = Some x /\ skipn (S d) l = xs /\ (d < length l)%nat.
Proof.
  revert l. induction d as [|d IH]; intros [|a l] H; cbn in H; try discriminate.
  - injection H as -> ->. cbn. split; [reflexivity|]. split; [reflexivity | lia].
  - destruct (IH l H) as (A1 & A2 & A3). split; [exact A1|]. split; [exact A2|]. cbn; lia.
Qed.

Lemma yields_head ts t xt rest : exists u xu more, yields ts ++ (t, xt) :: rest = (u, xu) :: more /\
  exists w, yields ts ++ [(t, xt)] = (u, xu) :: w.
Proof.
  destruct (yields ts) as [|[u xu] w]; cbn; [exists t, xt, rest | exists u, xu, (w ++ (t, xt) :: rest)]; split; try reflexivity; eexists; reflexivity.
Qed.

Lemma reading_trees : (forall x tr, derives g x tr -> reads_tree x tr) /\ (forall xs ts, derives_all g xs ts -> reads_forest xs ts).
Proof.
  apply derives_both.
  - (* a token *)
    intros token text R _ s s' st vs u xu rest M _. exists 1%nat. intros k. cbn [yield app Nat.add read_tokens].
    destruct M as [[_ E]|(X & _)]; [|fold g nt in X; fold nt in R; lia]. rewrite E. cbn [bind value].
    destruct (at_shift acts token text); reflexivity.
  - (* a production *)
    intros i q ts G Rl D IH Na s s' st vs u xu rest M La. fold nt in Rl.
    destruct (IH i q 0%nat s u xu st vs rest G eq_refl ltac:(lia) (La Rl i q G eq_refl)) as (n & s1 & st1 & Es & La1 & R).
    exists (n + 1)%nat. intros k. replace (n + 1 + k)%nat with (n + S k)%nat by lia. cbn [yield value]. fold (yields ts).
    rewrite R. change (fold_right _ _ ts) with (values acts ts). destruct (values acts ts) as [vv|] eqn:Ev; [|reflexivity].
    assert (length (rhs q) = length ts) as Lt by (apply (derives_all_length g); exact D).
    assert (length vv = length ts) as Lv.
    { clear - Ev. revert vv Ev. induction ts as [|t ts IHt]; intros vv Ev; cbn in Ev; [injection Ev as <-; reflexivity|].
      destruct (value acts t); [|discriminate]. change (fold_right _ _ ts) with (values acts ts) in Ev. destruct (values acts ts) as [w|]; [|discriminate]. injection Ev as <-. cbn. rewrite (IHt w eq_refl). reflexivity. }
    cbn [read_tokens]. pose proof (Cover s1 i q u G La1) as Ec. rewrite Ec. cbn [bind].
    unfold get_accept_production. fold g. fold acc. destruct (Z.eqb_spec i acc) as [Ei|Ni].
    { exfalso. destruct acc_prod as (goal & Ga & _). rewrite Ei, Ga in G. injection G as <-. cbn in Na. lia. }
    replace (vget (productions g) i) with (Ok q) by (symmetry; apply vget_ok; exact G). cbn [bind].
    rewrite pop_skipn by (rewrite app_length, rev_length; lia). cbn [bind].
    assert (length (rhs q) = length (rev vv)) as Lr by (rewrite rev_length; lia).
    rewrite Lr, firstn_app, skipn_app, Nat.sub_diag, firstn_all, skipn_all. cbn [firstn skipn app]. rewrite app_nil_r, rev_involutive.
    destruct (at_reduce acts i vv) as [v|]; [|reflexivity].
    unfold execute_action. fold g. replace (vget (productions g) i) with (Ok q) by (symmetry; apply vget_ok; exact G). cbn [bind].
    rewrite pop_skipn.
    2:{ rewrite Lt. assert (length (skipn (length ts) (s1 :: st1)) = S (length st)) as X by (rewrite Es; reflexivity). rewrite skipn_length in X. lia. }
    rewrite Lt, Es. cbn [bind]. destruct M as [[X _]|(_ & _ & E)]; [fold g nt in X; lia|]. unfold as_nonterminal. unfold g. rewrite E. reflexivity.
  - (* no trees *)
    intros i q d s t xt st vs rest G Es Ld La. exists 0%nat, s, st. split; [reflexivity|]. split.
    + replace (zlen (rhs q)) with (Z.of_nat d); [exact La|]. assert (length (skipn d (rhs q)) = 0%nat) as X by (rewrite Es; reflexivity).
      rewrite skipn_length in X. unfold zlen. lia.
    + reflexivity.
  - (* a tree and more *)
    intros x xs tr ts Dt IHt Ds IHs i q d s t xt st vs rest G Es Ld La.
    apply skipn_cons in Es as (Nx & Es & Lt).
    assert (zget (rhs q) (Z.of_nat d) = Ok x) as Gx by (apply zget_ok; split; [lia | rewrite Nat2Z.id; exact Nx]).
    destruct (lr_goto p item L _ _ _ _ _ (lookahead_item _ _ _ _ La) G Gx) as (s1 & M1).
    destruct (yields_head ts t xt rest) as (u & xu & more & Eu & w & Ew).
    destruct (IHt) with (s := s) (s' := s1) (st := st) (vs := vs) (u := u) (xu := xu) (rest := more) as (n1 & R1).
    + intros X. destruct (aug_rhs g (lr_aug p item L) q x (zget_In _ _ _ G) (zget_In _ _ _ Gx)) as [B _]. lia.
    + exact M1.
    + intros Rx j r Gj El. eapply (la_close p s i (Z.of_nat d) t q x j r u); try eassumption. rewrite Nat2Z.id. exists ts, xt, xu, w. rewrite Es. split; [exact Ds | exact Ew].
    + assert (lookahead p s1 i (Z.of_nat (S d)) t) as La1 by (replace (Z.of_nat (S d)) with (Z.of_nat d + 1) by lia; eapply la_move; eassumption).
      destruct (value acts tr) as [v|] eqn:Ev.
      * destruct (IHs i q (S d) s1 t xt (s :: st) (v :: vs) rest G Es ltac:(lia) La1) as (n2 & s2 & st2 & Es2 & La2 & R2).
        exists (n1 + n2)%nat, s2, st2. split; [|split; [exact La2|]].
        -- cbn [length]. assert (forall (A : Type) n (l : list A) a b m, skipn n l = a :: b :: m -> skipn (S n) l = b :: m) as Sk.
           { clear. intros A n. induction n as [|n IH]; intros [|c l] a b m H; cbn in H; try discriminate; [injection H as -> ->; reflexivity|].
             change (skipn (S (S n)) (c :: l)) with (skipn (S n) l). eapply IH. exact H. }
           eapply Sk. exact Es2.
        -- intros k. cbn [yields map List.concat]. fold (yields ts). rewrite <- app_assoc, Eu. rewrite <- Nat.add_assoc, R1. rewrite <- Eu, R2.
           change (values acts (tr :: ts)) with (match value acts tr, values acts ts with Some v, Some vs => Some (v :: vs) | _, _ => None end).
           rewrite Ev. destruct (values acts ts) as [vv|]; [|reflexivity]. cbn [rev]. rewrite <- app_assoc. reflexivity.
      * destruct (IHs i q (S d) s1 t xt (s :: st) vs rest G Es ltac:(lia) La1) as (n2 & s2 & st2 & Es2 & La2 & R2).
        exists n1, s2, st2. split; [|split; [exact La2|]].
        -- cbn [length]. assert (forall (A : Type) n (l : list A) a b m, skipn n l = a :: b :: m -> skipn (S n) l = b :: m) as Sk.
           { clear. intros A n. induction n as [|n IH]; intros [|c l] a b m H; cbn in H; try discriminate; [injection H as -> ->; reflexivity|].
             change (skipn (S (S n)) (c :: l)) with (skipn (S n) l). eapply IH. exact H. }
           eapply Sk. exact Es2.
        -- intros k. cbn [yields map List.concat]. fold (yields ts). rewrite <- app_assoc, Eu. rewrite R1.
           change (values acts (tr :: ts)) with (match value acts tr, values acts ts with Some v, Some vs => Some (v :: vs) | _, _ => None end).
           rewrite Ev. reflexivity.
Qed.

Lemma read_complete t tokens : parses g t tokens ->
  exists n, forall k, read_all (n + k) p acts tokens = Ok (result_of acts t).
Proof.
  intros ((x & (q & G & Er) & D) & <-).
  assert (derives_all g (rhs q) [t]) as Ds by (rewrite Er; constructor; [exact D | constructor]).
  destruct (proj2 reading_trees _ _ Ds acc q 0%nat 0 (nt - 1) [] [] [] [] G eq_refl ltac:(lia) (la_start p)) as (n & s' & st' & Es & La & R).
  exists (n + 1)%nat. intros k. replace (n + 1 + k)%nat with (n + S k)%nat by lia. unfold read_all, get_end_terminal. fold g nt.
  specialize (R (S k)). cbn [yields map List.concat] in R. rewrite app_nil_r in R. rewrite R.
  change (values acts [t]) with (match value acts t with Some v => Some [v] | _ => None end). unfold result_of.
  destruct (value acts t) as [v|]; [|reflexivity]. cbn [rev app read_tokens].
  rewrite (Cover s' acc q (nt - 1) G La). cbn [bind]. unfold get_accept_production. fold g acc. rewrite Z.eqb_refl. reflexivity.
Qed.
End Reading.
