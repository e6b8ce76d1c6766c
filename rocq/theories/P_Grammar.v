(** From a language to its grammar. *)
From Verif Require Import Prelude M_Automaton M_Grammar M_Parser S_Grammar P_Automaton P_Automaton2 P_Automaton5 P_Parser P_Parser5 P_Parser6 P_Transit.
Local Open Scope Z_scope.

Scheme denotes_mind := Minimality for denotes Sort Prop
  with denotes_all_mind := Minimality for denotes_all Sort Prop.
Combined Scheme denotes_both from denotes_mind, denotes_all_mind.

(** What the map of names holds: the tokens, then the nonterminals *)
Record named (l : language) (m : list (list Z * Z)) (ns nt : Z) : Prop := {
  nm_tokens : nt = zlen (token_names l);
  nm_terminal : forall name k, lookup_name m name = Some k -> k < nt -> token_named l name k;
  nm_token : forall name, In name (token_names l) -> exists k, lookup_name m name = Some k /\ 0 <= k < nt;
  nm_range : forall name k, lookup_name m name = Some k -> 0 <= k < ns;
  nm_inj : forall name name' k, lookup_name m name = Some k -> lookup_name m name' = Some k -> name = name';
  nm_count : nt <= ns;
  nm_hit : forall k, nt <= k < ns -> exists name, lookup_name m name = Some k }.

Lemma token_names_ok l : exists m, fold_left (fun '(m, n) name => (assign_name m name n, n + 1)) (token_names l) ([], 0) = (m, zlen (token_names l)) /\
  named l m (zlen (token_names l)) (zlen (token_names l)).
Proof.
  set (toks := token_names l).
  assert (forall rest don m, don ++ rest = toks ->
    (forall name k, lookup_name m name = Some k -> zget don k = Ok name /\ forall k', k < k' -> zget don k' <> Ok name) ->
    (forall name, In name don -> exists k, lookup_name m name = Some k) ->
    exists m', fold_left (fun '(m, n) name => (assign_name m name n, n + 1)) rest (m, zlen don) = (m', zlen toks) /\
    (forall name k, lookup_name m' name = Some k -> zget toks k = Ok name /\ forall k', k < k' -> zget toks k' <> Ok name) /\
    (forall name, In name toks -> exists k, lookup_name m' name = Some k)) as X.
  { induction rest as [|a rest IH]; intros don m E H1 H2.
    - rewrite app_nil_r in E. subst don. exists m. split; [reflexivity|]. auto.
    - cbn [fold_left]. destruct (IH (don ++ [a]) (assign_name m a (zlen don))) as (m' & E' & H').
      + rewrite <- app_assoc. exact E.
      + intros name k. unfold assign_name. cbn [lookup_name]. destruct (list_eq_dec Z.eq_dec a name) as [->|N]; intros L.
        * injection L as <-. split; [apply zget_app_last|]. intros k' Hk G. apply zget_bounds in G. rewrite zlen_snoc in G. lia.
        * apply H1 in L as [G U]. split; [rewrite zget_app_l by (apply zget_bounds in G; lia); exact G|]. intros k' Hk G'.
          destruct (Z_lt_le_dec k' (zlen don)) as [Lt|Ge].
          -- rewrite zget_app_l in G' by (apply zget_bounds in G'; lia). exact (U _ Hk G').
          -- assert (k' = zlen don) as -> by (apply zget_bounds in G'; rewrite zlen_snoc in G'; lia). rewrite zget_app_last in G'. congruence.
      + intros name I. unfold assign_name. cbn [lookup_name]. destruct (list_eq_dec Z.eq_dec a name) as [->|N]; [eauto|].
        apply H2. apply in_app_or in I as [I|[I|[]]]; [exact I | congruence].
      + exists m'. rewrite <- E', zlen_snoc. split; [reflexivity | exact H']. }
  destruct (X toks [] []) as (m & E & H1 & H2); [reflexivity | discriminate | intros ? []|]. change (zlen (@nil (list Z))) with 0 in E.
  exists m. split; [exact E|]. constructor; fold toks.
  - reflexivity.
  - intros name k L _. exact (H1 _ _ L).
  - intros name I. destruct (H2 name I) as (k & L). exists k. split; [exact L|]. destruct (H1 _ _ L) as [G _]. apply zget_bounds in G. exact G.
  - intros name k L. destruct (H1 _ _ L) as [G _]. apply zget_bounds in G. exact G.
  - intros a b k La Lb. apply H1 in La as [Ga _]. apply H1 in Lb as [Gb _]. congruence.
  - lia.
  - intros; lia.
Qed.

Lemma name_symbols_ok l : exists m ns, name_symbols l = (m, ns, zlen (token_names l)) /\ named l m ns (zlen (token_names l)) /\
  forall name, (exists k, lookup_name m name = Some k) <-> known_name l name.
Proof.
  unfold name_symbols. destruct (token_names_ok l) as (m0 & -> & N0). set (nt := zlen (token_names l)) in *.
  assert (forall rest don m ns, don ++ rest = named_productions l -> named l m ns nt ->
    (forall name, (exists k, lookup_name m name = Some k) <-> In name (token_names l) \/ In name (map fst don)) ->
    exists m' ns', fold_left (fun '(m, n) p => match lookup_name m (fst p) with Some _ => (m, n) | None => (assign_name m (fst p) n, n + 1) end) rest (m, ns) = (m', ns') /\
      named l m' ns' nt /\ forall name, (exists k, lookup_name m' name = Some k) <-> known_name l name) as X.
  { induction rest as [|[a as'] rest IH]; intros don m ns E N H.
    - rewrite app_nil_r in E. subst don. exists m, ns. split; [reflexivity|]. split; [exact N|]. exact H.
    - cbn [fold_left fst]. destruct (lookup_name m a) as [k|] eqn:La.
      + apply (IH (don ++ [(a, as')])); [rewrite <- app_assoc; exact E | exact N|]. intros name. rewrite H, map_app, in_app_iff. cbn [map fst In]. split.
        * tauto.
        * intros [I|[I|[<-|[]]]]; [auto | auto|]. apply H. eauto.
      + apply (IH (don ++ [(a, as')])); [rewrite <- app_assoc; exact E | |].
        * destruct N as [N1 N2 N3 N4 N5 N6 N7]. pose proof (zlen_nonneg (token_names l)) as Zt. fold nt in Zt. constructor.
          -- exact N1.
          -- intros name k. unfold assign_name. cbn [lookup_name]. destruct (list_eq_dec Z.eq_dec a name) as [->|Na]; intros L Lt; [injection L as <-; lia | auto].
          -- intros name I. unfold assign_name. cbn [lookup_name]. destruct (list_eq_dec Z.eq_dec a name) as [->|Na]; [|auto].
             destruct (N3 name I) as (k & L & _). congruence.
          -- intros name k. unfold assign_name. cbn [lookup_name]. destruct (list_eq_dec Z.eq_dec a name) as [->|Na]; intros L; [injection L as <-; lia|]. apply N4 in L. lia.
          -- intros x y k. unfold assign_name. cbn [lookup_name]. destruct (list_eq_dec Z.eq_dec a x) as [Ex|Nx], (list_eq_dec Z.eq_dec a y) as [Ey|Ny]; intros L1 L2.
             ++ congruence.
             ++ injection L1 as <-. apply N4 in L2. lia.
             ++ injection L2 as <-. apply N4 in L1. lia.
             ++ eauto.
          -- lia.
          -- intros k Rk. unfold assign_name. cbn [lookup_name]. destruct (Z.eq_dec k ns) as [->|Nk].
             ++ exists a. destruct (list_eq_dec Z.eq_dec a a); [reflexivity | congruence].
             ++ destruct (N7 k ltac:(lia)) as (name & L). exists name. destruct (list_eq_dec Z.eq_dec a name) as [E0|_]; [congruence | exact L].
        * intros name. unfold assign_name. cbn [lookup_name]. rewrite map_app, in_app_iff. cbn [map fst In].
          destruct (list_eq_dec Z.eq_dec a name) as [->|Na].
          -- split; [intros _; auto | intros _; eauto].
          -- rewrite H. tauto. }
  destruct (X (named_productions l) [] m0 nt) as (m & ns & -> & N & H); [reflexivity | exact N0| |].
  - intros name. split.
    + intros (k & L). left. pose proof (nm_range _ _ _ _ N0 _ _ L) as R. apply (nm_terminal _ _ _ _ N0) in L as [G _]; [|lia]. eapply zget_In. exact G.
    + intros [I|[]]. destruct (nm_token _ _ _ _ N0 _ I) as (k & L & _). eauto.
  - exists m, ns. auto.
Qed.

Section Build.
Variable l : language.
Variable m : list (list Z * Z).
Variable ns : Z.
Let nt := zlen (token_names l).
Hypothesis N : named l m ns nt.

(** the symbol of a name, after the end terminal has been put among the terminals *)
Definition symbol_of (name : list Z) (x : Z) : Prop := exists k, lookup_name m name = Some k /\ x = if k <? nt then k else k + 1.

Lemma symbol_fun a x y : symbol_of a x -> symbol_of a y -> x = y.
Proof. intros (k & L & ->) (k' & L' & ->). rewrite L in L'. injection L' as <-. reflexivity. Qed.
Lemma symbol_inj a b x : symbol_of a x -> symbol_of b x -> a = b.
Proof.
  intros (k & L & E) (k' & L' & E'). assert (k = k') as <- by (destruct (Z.ltb_spec k nt), (Z.ltb_spec k' nt); lia).
  eapply (nm_inj _ _ _ _ N); eassumption.
Qed.
Lemma symbol_range a x : symbol_of a x -> 0 <= x < ns + 1 /\ x <> nt.
Proof. intros (k & L & ->). apply (nm_range _ _ _ _ N) in L. destruct (Z.ltb_spec k nt); lia. Qed.
Lemma symbol_token a x : symbol_of a x -> x < nt -> token_named l a x.
Proof. intros (k & L & ->) H. destruct (Z.ltb_spec k nt); [|lia]. eapply (nm_terminal _ _ _ _ N); eassumption. Qed.
Lemma token_symbol a k : token_named l a k -> symbol_of a k /\ 0 <= k < nt.
Proof.
  intros [G U]. destruct (nm_token _ _ _ _ N a (zget_In _ _ _ G)) as (k' & L & R). destruct (nm_terminal _ _ _ _ N _ _ L ltac:(lia)) as [G' U'].
  assert (k' = k) as -> by (destruct (Z.lt_trichotomy k k') as [H|[H|H]]; [exfalso; exact (U _ H G') | congruence | exfalso; exact (U' _ H G)]).
  split; [|exact R]. exists k. split; [exact L|]. destruct (Z.ltb_spec k nt); [reflexivity | lia].
Qed.
Lemma symbol_nonterminal a x : symbol_of a x -> (nt < x <-> ~ In a (token_names l)).
Proof.
  intros Sx. split.
  - intros H I. destruct (nm_token _ _ _ _ N a I) as (k & L & R). assert (symbol_of a k) as Sk by (exists k; split; [exact L|]; destruct (Z.ltb_spec k nt); [reflexivity | lia]).
    pose proof (symbol_fun _ _ _ Sx Sk). lia.
  - intros H. destruct (Z_lt_le_dec x nt) as [Lt|Ge].
    + exfalso. apply H. destruct (symbol_token _ _ Sx Lt) as [G _]. eapply zget_In. exact G.
    + apply symbol_range in Sx. lia.
Qed.

(** The production made from a named production *)
Definition production_of (p : list Z * list (list Z)) (q : production) : Prop := symbol_of (fst p) (lhs q) /\ Forall2 symbol_of (snd p) (rhs q).

Variable ps : list production.
Hypothesis PS : Forall2 production_of (named_productions l) ps.
Variable goal : list Z.
Variable goal_symbol : Z.
Hypothesis GS : symbol_of goal goal_symbol.
Hypothesis GN : nt < goal_symbol.
Let g := mk_grammar (ns + 2) (nt + 1) (ps ++ [mk_production (ns + 1) [goal_symbol]]).

Lemma prod_get i q : zget (productions g) i = Ok q -> (exists p, zget (named_productions l) i = Ok p /\ production_of p q) \/ q = mk_production (ns + 1) [goal_symbol] /\ i = zlen ps.
Proof.
  intros G. pose proof (zget_bounds _ _ _ G) as B. cbn [productions g] in *. rewrite zlen_snoc in B. destruct (Z_lt_le_dec i (zlen ps)).
  - left. rewrite zget_app_l in G by lia. destruct (Forall2_get _ _ _ _ _ PS G) as (p & Gp & H). eauto.
  - right. assert (i = zlen ps) as -> by lia. rewrite zget_app_last in G. injection G as <-. auto.
Qed.

Lemma built_augmented : augmented g.
Proof.
  pose proof (nm_count _ _ _ _ N) as C. pose proof (zlen_nonneg (token_names l)) as Zt. fold nt in Zt.
  assert (forall q, In q ps -> exists p, In p (named_productions l) /\ production_of p q) as Hq by (intros q I; destruct (Forall2_In_r _ _ _ _ PS I) as (p & Ip & H); eauto).
  constructor; cbn [nsymbols nterminals productions g].
  - lia.
  - intros q I. apply in_app_or in I as [I|[<-|[]]]; [|cbn; lia]. destruct (Hq q I) as (p & _ & H & _). apply symbol_range in H. lia.
  - intros q x I Ix. apply in_app_or in I as [I|[<-|[]]].
    + destruct (Hq q I) as (p & _ & _ & H). destruct (Forall2_In_r _ _ _ _ H Ix) as (a & _ & Sa). apply symbol_range in Sa. lia.
    + cbn in Ix. destruct Ix as [<-|[]]. apply symbol_range in GS. lia.
  - exists ps, goal_symbol. replace (ns + 2 - 1) with (ns + 1) by lia. split; [reflexivity|]. split; [lia|].
    intros q I. destruct (Hq q I) as (p & _ & H & _). apply symbol_range in H. lia.
Qed.

Lemma derives_denotes : (forall x t, derives g x t -> forall name, symbol_of name x -> denotes l name t) /\
  (forall xs ts, derives_all g xs ts -> forall names, Forall2 symbol_of names xs -> denotes_all l names ts).
Proof.
  apply derives_both.
  - intros token text R name Sn. cbn [nterminals g] in R. apply denotes_token. apply symbol_token; [exact Sn|]. apply symbol_range in Sn. lia.
  - intros i q ts G Rl _ IH name Sn. cbn [nterminals g] in Rl. destruct (prod_get _ _ G) as [([name' names] & Gp & Hl & Hr)|[-> _]].
    + cbn [fst snd] in *. assert (name' = name) as -> by (eapply symbol_inj; eassumption). eapply denotes_production; [exact Gp| |apply IH; exact Hr].
      apply (symbol_nonterminal _ _ Hl). apply symbol_range in Hl. lia.
    + apply symbol_range in Sn. cbn [lhs] in Sn. lia.
  - intros names F. inversion F. constructor.
  - intros x xs t ts _ IH1 _ IH2 names F. inversion F; subst. constructor; auto.
Qed.
Lemma denotes_derives : (forall name t, denotes l name t -> forall x, symbol_of name x -> derives g x t) /\
  (forall names ts, denotes_all l names ts -> forall xs, Forall2 symbol_of names xs -> derives_all g xs ts).
Proof.
  apply denotes_both.
  - intros name k text T x Sx. destruct (token_symbol _ _ T) as [Sk R]. rewrite (symbol_fun _ _ _ Sx Sk). apply derives_leaf. cbn [nterminals g]. lia.
  - intros name i names ts G Nt _ IH x Sx. destruct (Forall2_zget _ _ _ PS _ _ G) as (q & Gq & Hl & Hr). cbn [fst snd] in *.
    rewrite (symbol_fun _ _ _ Sx Hl). apply derives_node; [|apply (symbol_nonterminal _ _ Hl) in Nt; cbn [nterminals g]; lia | apply IH; exact Hr].
    cbn [productions g]. rewrite zget_app_l by (apply zget_bounds in Gq; lia). exact Gq.
  - intros xs F. inversion F. constructor.
  - intros name names t ts _ IH1 _ IH2 xs F. inversion F; subst. constructor; auto.
Qed.

Lemma built_parses t w : parses g t w <-> denotes l goal t /\ yield t = w.
Proof.
  assert (forall x, goal_of g x <-> x = goal_symbol) as Hg.
  { intros x. unfold goal_of. cbn [productions g]. rewrite zlen_snoc. replace (zlen ps + 1 - 1) with (zlen ps) by lia. rewrite zget_app_last. split.
    - intros (p & E & Ep). injection E as <-. cbn [rhs] in Ep. congruence.
    - intros ->. eauto. }
  unfold parses. split.
  - intros ((x & Gx & D) & E). apply Hg in Gx. subst x. split; [|exact E]. eapply derives_denotes; [exact D | exact GS].
  - intros (D & E). split; [|exact E]. exists goal_symbol. split; [apply Hg; reflexivity|]. eapply denotes_derives; [exact D | exact GS].
Qed.
End Build.

(** find_goal_symbol *)
Lemma goal_symbol_spec g : 0 <= nterminals g -> (forall p x, In p (productions g) -> In x (rhs p) -> 0 <= x <= nsymbols g) ->
  exists goals, (forall x, In x goals <-> nterminals g <= x < nsymbols g /\ forall p, In p (productions g) -> ~ In x (rhs p)) /\ NoDup goals /\
    find_goal_symbol g = match goals with [x] => Ok x | _ => Abort end.
Proof.
  intros Hn Hr. unfold find_goal_symbol.
  assert (exists used, foldM (fun s p => foldM (fun s x => _ <- check (0 <=? x) ;; b <- is_nonterminal g x ;; Ok (if (b : bool) then set_insert x s else s)) (rhs p) s) (productions g) [] = Ok used /\
    forall x, In x used <-> nterminals g <= x /\ exists p, In p (productions g) /\ In x (rhs p)) as (used & -> & Hu).
  { assert (forall xs s, (forall x, In x xs -> 0 <= x <= nsymbols g) -> exists s', foldM (fun s x => _ <- check (0 <=? x) ;; b <- is_nonterminal g x ;; Ok (if (b : bool) then set_insert x s else s)) xs s = Ok s' /\
      forall x, In x s' <-> In x s \/ (nterminals g <= x /\ In x xs)) as X1.
    { induction xs as [|y xs IH]; intros s R; [exists s; split; [reflexivity|]; cbn [In]; tauto|]. cbn [foldM]. specialize (R y (or_introl eq_refl)) as Ry.
      unfold is_nonterminal, is_terminal. destruct (Z.leb_spec 0 y); [|lia]. destruct (Z.leb_spec y (nsymbols g)); [|lia]. cbn [check bind].
      destruct (IH (if negb (y <? nterminals g) then set_insert y s else s)) as (s' & E & H'); [intros x Ix; apply R; right; exact Ix|].
      exists s'. split; [exact E|]. intros x. rewrite H'. destruct (Z.ltb_spec y (nterminals g)); cbn [negb In]; rewrite ?set_insert_In.
      - split; [tauto|]. intros [I|[I [->|Ix]]]; [auto | lia | auto].
      - split; [intros [[->|I]|[I Ix]]; auto|]. intros [I|[I [->|Ix]]]; auto. }
    assert (forall ps s, (forall p x, In p ps -> In x (rhs p) -> 0 <= x <= nsymbols g) -> exists s', foldM (fun s p => foldM (fun s x => _ <- check (0 <=? x) ;; b <- is_nonterminal g x ;; Ok (if (b : bool) then set_insert x s else s)) (rhs p) s) ps s = Ok s' /\
      forall x, In x s' <-> In x s \/ (nterminals g <= x /\ exists p, In p ps /\ In x (rhs p))) as X2.
    { induction ps as [|q ps IH]; intros s R; [exists s; split; [reflexivity|]; intros x; split; [auto|]; intros [I|(_ & p & [] & _)]; exact I|]. cbn [foldM].
      destruct (X1 (rhs q) s) as (s1 & -> & H1); [intros x; apply R; left; reflexivity|]. cbn [bind].
      destruct (IH s1) as (s2 & -> & H2); [intros p x Ip; apply R; right; exact Ip|]. exists s2. split; [reflexivity|]. intros x. rewrite H2, H1. split.
      - intros [[I|[I Ix]]|(I & p & Ip & Ix)]; [auto | right; split; [exact I | exists q; split; [left; reflexivity | exact Ix]] | right; split; [exact I | exists p; split; [right; exact Ip | exact Ix]]].
      - intros [I|(I & p & [<-|Ip] & Ix)]; [auto | auto | right; eauto]. }
    destruct (X2 (productions g) []) as (s & E & H); [exact Hr|]. exists s. split; [exact E|]. intros x. rewrite H. cbn [In]. tauto. }
  cbn [bind]. set (goals := filter (fun x => negb (set_count x used)) (zfromto (nterminals g) (nsymbols g))). exists goals.
  assert (forall x, In x goals <-> nterminals g <= x < nsymbols g /\ forall p, In p (productions g) -> ~ In x (rhs p)) as Hg.
  { intros x. unfold goals. rewrite filter_In, in_zfromto. split.
    - intros [R Hx]. split; [exact R|]. intros p Ip Ix. apply negb_true_iff in Hx. assert (set_count x used = true) as Y by (apply set_count_In; apply Hu; split; [lia | eauto]). congruence.
    - intros [R Hx]. split; [exact R|]. apply negb_true_iff. destruct (set_count x used) eqn:E; [|reflexivity]. exfalso. apply set_count_In in E. apply Hu in E as (_ & p & Ip & Ix). exact (Hx p Ip Ix). }
  split; [exact Hg|]. split; [apply NoDup_filter; unfold zfromto; apply FinFun.Injective_map_NoDup; [intros a b; lia | apply zrange_NoDup]|].
  assert (forall l r, r = -1 \/ 0 <= r -> (forall x, In x l -> 0 <= x) ->
    foldM (fun result s => if set_count s used then Ok result else _ <- check (result =? -1) ;; Ok s) l r =
    match filter (fun x => negb (set_count x used)) l with
    | [] => Ok r
    | [x] => if r =? -1 then Ok x else Abort
    | _ => Abort
    end) as X.
  { induction l as [|y l IH]; intros r Hr' Hp; [reflexivity|]. cbn [foldM filter]. assert (forall x, In x l -> 0 <= x) as Hp' by (intros x I; apply Hp; right; exact I).
    destruct (set_count y used); cbn [negb bind]; [apply IH; assumption|]. destruct (Z.eqb_spec r (-1)) as [->|Nr]; cbn [check bind].
    - pose proof (Hp y (or_introl eq_refl)) as Py. rewrite IH by auto. destruct (filter _ l) as [|z [|z' r']]; [reflexivity| |reflexivity].
      destruct (Z.eqb_spec y (-1)); [lia | reflexivity].
    - destruct (filter _ l); reflexivity. }
  rewrite X; [|auto|intros x I; apply in_zfromto in I; lia]. fold goals. change (-1 =? -1) with true.
  assert (forall x, In x goals -> 0 <= x) as Pg by (intros x I; apply Hg in I; lia).
  destruct goals as [|x [|y r]]; cbn [bind]; try reflexivity. specialize (Pg x (or_introl eq_refl)). destruct (Z.eqb_spec x (-1)); [lia | reflexivity].
Qed.


Section Grammar.
Variable l : language.
Let nt := zlen (token_names l).

Lemma lookup_all (m : list (list Z * Z)) names :
  match fold_right (fun s r => match lookup_name m s, r with Some x, Some r => Some (x :: r) | _, _ => None end) (Some []) names with
  | Some xs => Forall2 (fun s x => lookup_name m s = Some x) names xs
  | None => exists s, In s names /\ lookup_name m s = None
  end.
Proof.
  induction names as [|s names IH]; [constructor|]. cbn [fold_right]. destruct (lookup_name m s) as [x|] eqn:L.
  - destruct (fold_right _ _ names) as [xs|]; [constructor; assumption|]. destruct IH as (s' & I & L'). exists s'. split; [right; exact I | exact L'].
  - exists s. split; [left; reflexivity | exact L].
Qed.

Lemma build_grammar_ok : exists m ns, named l m ns nt /\ (forall name, (exists k, lookup_name m name = Some k) <-> known_name l name) /\
  ((exists p s, In p (named_productions l) /\ In s (snd p) /\ ~ known_name l s) /\ build_grammar l = Ok None \/
   exists ps goals, Forall2 (production_of l m) (named_productions l) ps /\ NoDup goals /\
     (forall x, In x goals <-> exists a, symbol_of l m a x /\ goal_name l a) /\
     build_grammar l = match goals with
       | [x] => Ok (Some (mk_grammar (ns + 2) (nt + 1) (ps ++ [mk_production (ns + 1) [x]])))
       | _ => Abort
       end).
Proof.
  destruct (name_symbols_ok l) as (m & ns & En & N & K). exists m, ns. split; [exact N|]. split; [exact K|]. unfold build_grammar. rewrite En. fold nt. fold nt in N.
  pose proof (nm_count _ _ _ _ N) as Cn. pose proof (zlen_nonneg (token_names l)) as Zt. fold nt in Zt.
  set (f := fun p : list Z * list (list Z) => match lookup_name m (fst p) with
    | None => Abort
    | Some l => Ok (option_map (mk_production l) (fold_right (fun s r =>
        match lookup_name m s, r with Some x, Some r => Some (x :: r) | _, _ => None end) (Some []) (snd p)))
    end).
  set (R := fun (p : list Z * list (list Z)) (q : option production) => match q with
     | Some q => lookup_name m (fst p) = Some (lhs q) /\ Forall2 (fun s x => lookup_name m s = Some x) (snd p) (rhs q)
     | None => exists s, In s (snd p) /\ lookup_name m s = None end).
  assert (exists qs, mapM f (named_productions l) = Ok qs /\ Forall2 R (named_productions l) qs) as (qs & -> & F).
  { assert (forall p, In p (named_productions l) -> exists q, f p = Ok q /\ R p q) as X.
    { intros p I. unfold f, R. destruct (proj2 (K (fst p))) as (k & L); [right; apply in_map; exact I|]. rewrite L. eexists. split; [reflexivity|].
      pose proof (lookup_all m (snd p)) as Y. destruct (fold_right _ _ (snd p)); cbn [option_map]; [split; [reflexivity | exact Y] | exact Y]. }
    revert X. generalize (named_productions l). intros ps. induction ps as [|p ps IH]; intros X; [exists []; split; [reflexivity | constructor]|].
    destruct (X p (or_introl eq_refl)) as (q & Eq & Rq). destruct IH as (qs & E & F); [intros p' I; apply X; right; exact I|].
    exists (q :: qs). cbn [mapM]. rewrite Eq. cbn [bind]. rewrite E. split; [reflexivity | constructor; assumption]. }
  cbn [bind].
  assert (match fold_right (fun p r => match p, r with Some p, Some r => Some (p :: r) | _, _ => None end) (Some []) qs with
    | Some ps => Forall2 (fun p q => R p (Some q)) (named_productions l) ps
    | None => exists p s, In p (named_productions l) /\ In s (snd p) /\ ~ known_name l s end) as Y.
  { clear f. revert F. generalize (named_productions l). intros ps F. induction F as [|p q ps qs H F IH]; [constructor|]. cbn [fold_right]. destruct q as [q|].
    - destruct (fold_right _ _ qs); [constructor; assumption|]. destruct IH as (p' & s & I & H'). exists p', s. split; [right; exact I | exact H'].
    - destruct H as (s & I & L). exists p, s. split; [left; reflexivity|]. split; [exact I|]. intros Kn. apply K in Kn as (k & L'). congruence. }
  destruct (fold_right _ _ qs) as [ps0|]; [right|left; split; [exact Y | reflexivity]].
  assert (forall s x, lookup_name m s = Some x -> exists y, shift_symbol (mk_grammar ns nt ps0) x = Ok y /\ symbol_of l m s y) as Sh.
  { intros s x L. pose proof (nm_range _ _ _ _ N _ _ L) as Rx. unfold shift_symbol, is_nonterminal, is_terminal. cbn [nsymbols nterminals].
    destruct (Z.leb_spec 0 x); [|lia]. destruct (Z.leb_spec x ns); [|lia]. cbn [check bind]. eexists. split; [reflexivity|]. exists x. split; [exact L|].
    fold nt. destruct (x <? nt); reflexivity. }
  unfold add_end_terminal. cbn [productions nsymbols nterminals].
  assert (exists ps, mapM (fun p => l <- shift_symbol (mk_grammar ns nt ps0) (lhs p) ;; r <- mapM (shift_symbol (mk_grammar ns nt ps0)) (rhs p) ;; Ok (mk_production l r)) ps0 = Ok ps /\
     Forall2 (production_of l m) (named_productions l) ps) as (ps & E & FP).
  { revert Sh Y. generalize (mk_grammar ns nt ps0) (named_productions l). clear - l. intros gg nps Sh F. induction F as [|p q nps ps0 [H1 H2] F IH]; [exists []; split; [reflexivity | constructor]|].
    destruct IH as (ps & E & FP). destruct (Sh _ _ H1) as (y & Ey & Sy).
    assert (exists ys, mapM (shift_symbol gg) (rhs q) = Ok ys /\ Forall2 (symbol_of l m) (snd p) ys) as (ys & Eys & Fys).
    { clear - H2 Sh. induction H2 as [|s x names xs L F IH]; [exists []; split; [reflexivity | constructor]|]. destruct IH as (ys & E & FY). destruct (Sh _ _ L) as (y & Ey & Sy).
      exists (y :: ys). cbn [mapM]. rewrite Ey. cbn [bind]. rewrite E. split; [reflexivity | constructor; assumption]. }
    exists (mk_production y ys :: ps). cbn [mapM]. rewrite Ey. cbn [bind]. rewrite Eys. cbn [bind]. rewrite E. cbn [bind]. split; [reflexivity|]. constructor; [split; assumption | exact FP]. }
  rewrite E. cbn [bind]. unfold add_accept_production. cbn [productions nsymbols nterminals].
  destruct (goal_symbol_spec (mk_grammar (ns + 1) (nt + 1) ps)) as (goals & Hg & Nd & Ef); cbn [productions nsymbols nterminals] in *.
  - lia.
  - intros q x I Ix. destruct (Forall2_In_r _ _ _ _ FP I) as (p & _ & _ & H). destruct (Forall2_In_r _ _ _ _ H Ix) as (a & _ & Sa). apply (symbol_range l m ns N) in Sa. lia.
  - exists ps, goals. split; [exact FP|]. split; [exact Nd|]. split.
    + intros x. rewrite Hg. split.
      * intros [Rx Hx]. destruct (nm_hit _ _ _ _ N (x - 1) ltac:(lia)) as (a & La).
        assert (symbol_of l m a x) as Sa by (exists (x - 1); split; [exact La|]; fold nt; destruct (Z.ltb_spec (x - 1) nt); lia).
        exists a. split; [exact Sa|]. split.
        -- assert (~ In a (token_names l)) as Na by (apply (symbol_nonterminal l m ns N a x Sa); lia). split; [exact Na|].
           destruct (proj1 (K a)) as [I|I]; [eauto | contradiction | exact I].
        -- intros p Ip Ia. destruct (Forall2_In_l _ _ _ p FP Ip) as (q & Iq & _ & Hr). destruct (Forall2_In_l _ _ _ a Hr Ia) as (y & Iy & Sy).
           apply (Hx q Iq). rewrite (symbol_fun l m a x y Sa Sy). exact Iy.
      * intros (a & Sa & (Na & _) & Hu). pose proof (symbol_range l m ns N a x Sa) as Rx. apply (symbol_nonterminal l m ns N a x Sa) in Na. fold nt in Na. split; [lia|].
        intros q Iq Ix. destruct (Forall2_In_r _ _ _ _ FP Iq) as (p & Ip & _ & Hr). destruct (Forall2_In_r _ _ _ _ Hr Ix) as (b & Ib & Sb).
        apply (Hu p Ip). rewrite (symbol_inj l m ns N a b x Sa Sb). exact Ib.
    + rewrite Ef. destruct goals as [|x [|y r]]; cbn [bind]; try reflexivity. do 3 f_equal; lia.
Qed.

Lemma build_grammar_some g : build_grammar l = Ok (Some g) ->
  augmented g /\ nterminals g = zlen (token_names l) + 1 /\ zlen (productions g) = zlen (named_productions l) + 1 /\
  exists goal, goal_name l goal /\ (forall a, goal_name l a -> a = goal) /\ forall t w, parses g t w <-> denotes l goal t /\ yield t = w.
Proof.
  intros E. destruct build_grammar_ok as (m & ns & N & K & [[_ E']|(ps & goals & FP & Nd & Hg & E')]); rewrite E' in E; [discriminate|].
  destruct goals as [|x [|y r]]; try discriminate. injection E as <-. destruct (proj1 (Hg x) (or_introl eq_refl)) as (a & Sa & Ga).
  assert (nt < x) as Nx by (apply (symbol_nonterminal l m ns N a x Sa); apply Ga).
  split; [eapply built_augmented; eassumption|]. split; [reflexivity|]. split; [cbn [productions]; rewrite zlen_snoc; apply Forall2_len in FP; unfold zlen; lia|].
  exists a. split; [exact Ga|]. split.
  - intros b Gb. assert (exists k, lookup_name m b = Some k) as (k & L) by (apply K; destruct Gb as [[_ I] _]; right; exact I).
    assert (exists y, symbol_of l m b y) as (y & Sb) by (exists (if k <? nt then k else k + 1); exists k; auto).
    assert (In y [x]) as Iy by (apply Hg; eauto). destruct Iy as [<-|[]]. exact (symbol_inj l m ns N _ _ _ Sb Sa).
  - intros t w. eapply built_parses; eassumption.
Qed.

Lemma build_grammar_none : build_grammar l = Ok None <-> ~ all_known l.
Proof.
  destruct build_grammar_ok as (m & ns & N & K & [[(p & s & Ip & Is & Ns) ->]|(ps & goals & FP & Nd & Hg & ->)]).
  - split; [|reflexivity]. intros _ H. exact (Ns (H p s Ip Is)).
  - split; [destruct goals as [|x [|y r]]; discriminate|]. intros H. exfalso. apply H. intros p s Ip Is.
    destruct (Forall2_In_l _ _ _ p FP Ip) as (q & _ & _ & Hr). destruct (Forall2_In_l _ _ _ s Hr Is) as (y & _ & k & L & _). apply K. eauto.
Qed.

Lemma build_grammar_abort : all_known l -> (exists goal, goal_name l goal /\ forall a, goal_name l a -> a = goal) <-> exists g, build_grammar l = Ok (Some g).
Proof.
  intros Hk. split.
  - intros (goal & Gg & U). destruct build_grammar_ok as (m & ns & N & K & [[(p & s & Ip & Is & Ns) _]|(ps & goals & FP & Nd & Hg & ->)]).
    { exfalso. exact (Ns (Hk p s Ip Is)). }
    assert (exists k, lookup_name m goal = Some k) as (k & L) by (apply K; destruct Gg as [[_ I] _]; right; exact I).
    assert (exists y, symbol_of l m goal y) as (y & Sb) by (exists (if k <? nt then k else k + 1); exists k; auto).
    assert (In y goals) as Iy by (apply Hg; eauto).
    assert (forall x, In x goals -> x = y) as Uy.
    { intros x I. apply Hg in I as (a & Sa & Ga). rewrite (U a Ga) in Sa. eapply symbol_fun; eassumption. }
    destruct goals as [|x [|z r]]; [destruct Iy | eauto|]. exfalso. inversion Nd as [|? ? Nx _]; subst. apply Nx. rewrite (Uy x (or_introl eq_refl)), (Uy z (or_intror (or_introl eq_refl))). left. reflexivity.
  - intros (g & E). destruct (build_grammar_some g E) as (_ & _ & _ & goal & Gg & U & _). eauto.
Qed.
End Grammar.
