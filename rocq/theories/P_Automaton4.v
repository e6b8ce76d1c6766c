(** The languages of concat, plus, maybe and star. *)
From Verif Require Import Prelude M_Automaton S_Automaton P_Automaton P_Automaton2 P_Automaton3.
Local Open Scope Z_scope.

Lemma acc_tok a s : acc a s = true <-> tok a s <> -1.
Proof. unfold acc. destruct (Z.eqb_spec (tok a s) (-1)); cbn; split; congruence. Qed.

Lemma recognises_some a w : well_formed a ->
  ((exists tk, recognises a w tk) <-> exists s, epath (edge a) 0 w s /\ acc a s = true).
Proof.
  intros W. split.
  - intros (tk & R). apply recognises_iff in R as (s & P & T & N); [|exact W]. exists s. split; [exact P|]. apply acc_tok. congruence.
  - intros (s & P & A). apply acc_tok in A. exists (tok a s). apply recognises_iff; [exact W|]. eauto.
Qed.

Lemma quiet_cells a s : well_formed a -> quiet_accepts a -> tok a s <> -1 ->
  cell a s (get_nsymbols a) = -1 /\ cell a s (get_nsymbols a + 1) = -1.
Proof.
  intros W Q N. split.
  - destruct (Z.eq_dec (cell a s (get_nsymbols a)) (-1)) as [|Nc]; [assumption|exfalso]. apply Nc.
    eapply (Q s (tok a s)); [apply accepts_iff; auto | exact N | left; reflexivity | apply cell_step; auto].
  - destruct (Z.eq_dec (cell a s (get_nsymbols a + 1)) (-1)) as [|Nc]; [assumption|exfalso]. apply Nc.
    eapply (Q s (tok a s)); [apply accepts_iff; auto | exact N | right; reflexivity | apply cell_step; auto].
Qed.

Lemma final_quiet a : final_accepts a -> quiet_accepts a.
Proof. intros F s tk e t A N _ S. eapply F; eassumption. Qed.

Lemma final_no_edge a s l t : well_formed a -> final_accepts a -> acc a s = true -> ~ edge a s l t.
Proof.
  intros W F A E. apply acc_tok in A. apply edge_cells in E as (N & c & E & _). apply N.
  eapply (F s (tok a s)); [apply accepts_iff; auto | exact A | apply cell_step; eassumption].
Qed.

Lemma shape_final fa n k cf tf : well_formed fa -> shape fa n k false cf tf ->
  (forall s c, 0 <= s < n -> 0 <= c < k + 2 -> tf s <> -1 -> cf s c = -1) -> final_accepts fa.
Proof.
  intros W H X s tk x t A N S.
  pose proof (step_bounds _ _ _ _ S) as [Rs Rx]. rewrite (sh_n _ _ _ _ _ _ H) in Rs. rewrite (sh_nc _ _ _ _ _ _ H) in Rx.
  rewrite (shape_accepts _ _ _ _ _ _ s H Rs) in A. rewrite (shape_step _ _ _ _ _ _ s x H Rs Rx) in S.
  injection A as A. injection S as S. rewrite <- S. apply X; [exact Rs | exact Rx | congruence].
Qed.

(* ------------------------------------------------------------------ *)
Lemma concat_good a b k token : well_formed a -> well_formed b -> get_nsymbols a = k -> get_nsymbols b = k -> 0 <= token ->
  good_cells (zlen (table a) + zlen (table b)) k false (concat_cell a b k (zlen (table a))) (concat_tok b (zlen (table a)) token).
Proof.
  intros Wa Wb Ka Kb Ht. pose proof (well_formed_good a Wa) as (A1 & A2 & _). pose proof (well_formed_good b Wb) as (B1 & _).
  rewrite Ka in A2. split; [lia|]. split; [lia|]. split; [lia|]. split.
  - intros s c Hs Hc. unfold concat_cell. destruct (s <? _).
    + destruct (_ && _); [lia|]. pose proof (cell_range a s c Wa). lia.
    + pose proof (shift_range (zlen (table a)) _ _ ltac:(lia) (cell_range b (s - zlen (table a)) c Wb)). lia.
  - intros s Hs. unfold concat_tok. destruct (_ && _); lia.
Qed.

Lemma concat_edge a b k fa s l t token : well_formed a -> well_formed b -> get_nsymbols a = k -> get_nsymbols b = k ->
  quiet_accepts a -> well_formed fa ->
  shape fa (zlen (table a) + zlen (table b)) k false (concat_cell a b k (zlen (table a))) (concat_tok b (zlen (table a)) token) ->
  (edge fa s l t <->
   (acc a s = true /\ l = None /\ t = zlen (table a)) \/ edge a s l t \/
   (exists s' t', s = s' + zlen (table a) /\ t = t' + zlen (table a) /\ edge b s' l t')).
Proof.
  intros Wa Wb Ka Kb Q W H. rewrite (shape_edge _ _ _ _ _ _ _ _ W H).
  pose proof (well_formed_good a Wa) as (A1 & A2 & _). pose proof (well_formed_good b Wb) as (B1 & _). rewrite Ka in A2.
  pose proof (fun X => quiet_cells a s Wa Q (proj1 (acc_tok a s) X)) as QC. rewrite Ka in QC.
  set (na := zlen (table a)) in *. set (nb := zlen (table b)) in *. split.
  - intros (Rs & N & E). unfold concat_cell in E. destruct (Z.ltb_spec s na).
    + destruct (acc a s) eqn:A; cbn [andb] in E.
      * destruct l as [x|].
        -- right; left. destruct E as [R E]. destruct (Z.eqb_spec x k); [lia|]. split; [exact N|]. rewrite Ka. split; assumption.
        -- left. rewrite Z.eqb_refl in E. destruct (Z.eqb_spec (k + 1) k); [lia|].
           destruct E as [E|E]; [auto|]. destruct (QC eq_refl) as [_ Q1]. congruence.
      * right; left. split; [exact N|]. rewrite Ka. exact E.
    + right; right. destruct (proj1 (shift_edge b na (s - na) l t k Wb Kb ltac:(lia)) (conj N E)) as (t' & -> & E').
      exists (s - na), t'. split; [lia|]. split; [reflexivity | exact E'].
  - intros [(A & -> & ->)|[E|(s' & t' & -> & -> & E)]].
    + pose proof (acc_out a s Wa A) as R. fold na in R. split; [lia|]. split; [lia|]. left. unfold concat_cell.
      destruct (Z.ltb_spec s na); [|lia]. rewrite A, Z.eqb_refl. reflexivity.
    + destruct (edge_range _ _ _ _ Wa E) as [Rs Rt]. fold na in Rs, Rt. split; [lia|]. split; [lia|]. unfold concat_cell.
      destruct (Z.ltb_spec s na); [|lia]. destruct E as [N E]. rewrite Ka in E. destruct l as [x|].
      * destruct E as [R E]. split; [exact R|]. destruct (Z.eqb_spec x k); [lia|]. rewrite andb_false_r. exact E.
      * destruct (acc a s) eqn:A; [destruct (QC eq_refl); exfalso; destruct E; congruence|]. cbn [andb]. exact E.
    + destruct (edge_range _ _ _ _ Wb E) as [Rs Rt]. fold nb in Rs, Rt.
      destruct (proj2 (shift_edge b na s' l (t' + na) k Wb Kb ltac:(lia)) (ex_intro _ t' (conj eq_refl E))) as [N X].
      split; [lia|]. split; [exact N|]. unfold concat_cell. destruct (Z.ltb_spec (s' + na) na); [lia|].
      replace (s' + na - na) with s' by lia. exact X.
Qed.

Lemma concat_correct a b token : well_formed a -> well_formed b -> get_nsymbols a = get_nsymbols b -> 0 <= token ->
  quiet_accepts a ->
  exists fa, concat a b token = Ok fa /\ well_formed fa /\ get_nsymbols fa = get_nsymbols a /\ is_deterministic fa = false /\
  (final_accepts b -> final_accepts fa) /\
  (forall w tk, recognises fa w tk <->
     tk = token /\ exists u v, w = u ++ v /\ (exists t, recognises a u t) /\ (exists t, recognises b v t)).
Proof.
  intros Wa Wb K Ht Q. set (k := get_nsymbols a). assert (get_nsymbols b = k) as Kb by (unfold k; congruence).
  destruct (concat_shape a b k token Wa Wb eq_refl Kb Ht) as (fa & E & H).
  { intros s N. apply (quiet_cells a s Wa Q N). }
  pose proof (shape_well_formed _ _ _ _ _ _ H (concat_good a b k token Wa Wb eq_refl Kb Ht)) as W.
  pose proof (fun s l t => concat_edge a b k fa s l t token Wa Wb eq_refl Kb Q W H) as Ed.
  pose proof (well_formed_good a Wa) as (A1 & A2 & A3 & _). pose proof (well_formed_good b Wb) as (B1 & B2 & B3 & _).
  set (na := zlen (table a)) in *. set (nb := zlen (table b)) in *.
  exists fa. split; [exact E|]. split; [exact W|]. split; [apply (shape_nsym _ _ _ _ _ _ H)|]. split; [apply (sh_det _ _ _ _ _ _ H)|].
  split.
  { intros Fb. apply (shape_final _ _ _ _ _ W H). intros s c Rs Rc T. unfold concat_tok in T. unfold concat_cell.
    destruct (Z.leb_spec na s); [|cbn [andb] in T; congruence]. cbn [andb] in T. destruct (Z.ltb_spec s na); [lia|].
    destruct (acc b (s - na)) eqn:A; [|congruence]. apply acc_tok in A.
    destruct (Z.eq_dec (cell b (s - na) c) (-1)) as [->|Nc]; [reflexivity|]. exfalso. apply Nc.
    eapply (Fb (s - na) (tok b (s - na))); [apply accepts_iff; auto | exact A | apply cell_step; auto]. }
  assert (forall s w t, epath (edge fa) s w t -> na <= s -> exists t', t = t' + na /\ epath (edge b) (s - na) w t') as InB.
  { intros s w t P Rs. destruct (Z_lt_dec s (na + nb)) as [Rl|Rl].
    - destruct (epath_region (edge b) (edge fa) (fun s => 0 <= s < nb) na) with (s := s) (w := w) (t := t) (s' := s - na)
        as (u & -> & Du & Pu); try lia; try assumption.
      { intros s1 l1 t1 D1 He. apply Ed in He as [(A & _)|[He|(s2 & t2 & Es & -> & E2)]].
        - pose proof (acc_out a _ Wa A) as R. fold na in R. lia.
        - pose proof (edge_range a _ _ _ Wa He) as [R _]. fold na in R. lia.
        - assert (s2 = s1) as -> by lia. exists t2. split; [reflexivity|]. split; [apply (edge_range b s1 l1 t2 Wb E2) | exact E2]. }
      eauto.
    - destruct (epath_stuck _ _ _ _ (fun l u He => Rl (proj2 (eq_ind _ (fun n => 0 <= s < n) (proj1 (edge_range fa s l u W He)) _ (sh_n _ _ _ _ _ _ H)))) P) as [-> ->].
      exists (s - na). split; [lia | constructor]. }
  intros w tk. rewrite recognises_iff by assumption. split.
  - intros (s & P & T & N). apply (shape_token _ _ _ _ _ _ _ _ W H N) in T as [Rs T].
    unfold concat_tok in T. destruct (Z.leb_spec na s) as [Ls|]; [|cbn [andb] in T; congruence]. cbn [andb] in T.
    destruct (acc b (s - na)) eqn:A; [|congruence]. split; [congruence|].
    assert (forall s0 w0 u0, epath (edge fa) s0 w0 u0 -> u0 = s -> 0 <= s0 < na ->
              exists u v m, w0 = u ++ v /\ epath (edge a) s0 u m /\ acc a m = true /\ epath (edge fa) na v s) as Split.
    { intros s0 w0 u0 P0. induction P0 as [s0|s0 l t0 w0 u0 He P0 IH]; intros -> R0; [lia|].
      apply Ed in He as [(Aa & -> & ->)|[He|(s2 & t2 & Es & -> & E2)]].
      - exists [], w0, s0. split; [reflexivity|]. split; [constructor|]. split; [exact Aa | exact P0].
      - destruct (edge_range a _ _ _ Wa He) as [_ Rt]. destruct (IH eq_refl Rt) as (u & v & m & -> & Pa & Am & Pf).
        exists (label l u), v, m. split; [destruct l; reflexivity|]. split; [econstructor; eassumption|]. split; assumption.
      - pose proof (edge_range b _ _ _ Wb E2). lia. }
    destruct (Split 0 w s P eq_refl ltac:(lia)) as (u & v & m & -> & Pa & Am & Pf).
    exists u, v. split; [reflexivity|]. split; (apply recognises_some; [assumption|]).
    + eauto.
    + destruct (InB _ _ _ Pf ltac:(lia)) as (t' & -> & Pb). exists t'. replace (na - na) with 0 in Pb by lia.
      split; [exact Pb|]. replace (t' + na - na) with t' in A by lia. exact A.
  - intros (-> & u & v & -> & Ra & Rb). apply recognises_some in Ra as (m & Pa & Am); [|assumption].
    apply recognises_some in Rb as (s & Pb & As); [|assumption]. pose proof (acc_out b s Wb As) as Rs. fold nb in Rs.
    exists (s + na). split; [|split; [|lia]].
    + apply (epath_app _ _ _ m).
      * replace 0 with (0 + 0) by lia. replace m with (m + 0) by lia. apply (epath_embed (edge a)); [|exact Pa].
        intros s1 l1 t1 E1. replace (s1 + 0) with s1 by lia. replace (t1 + 0) with t1 by lia. apply Ed. right; left; exact E1.
      * apply (epath_silent _ m (0 + na)); [apply Ed; left; split; [exact Am|]; split; [reflexivity | lia]|].
        apply (epath_embed (edge b)); [|exact Pb]. intros s1 l1 t1 E1. apply Ed. right; right; eauto.
    + assert (token <> -1) as Nt by lia. apply (shape_token _ _ _ _ _ _ _ _ W H Nt). split; [lia|]. unfold concat_tok.
      destruct (Z.leb_spec na (s + na)); [|lia]. replace (s + na - na) with s by lia. rewrite As. reflexivity.
Qed.

(* ------------------------------------------------------------------ *)
Lemma plus_good a k token : well_formed a -> get_nsymbols a = k -> 0 <= token ->
  good_cells (zlen (table a) + 1) k false (plus_cell a k (zlen (table a))) (plus_tok (zlen (table a)) token).
Proof.
  intros Wa Ka Ht. pose proof (well_formed_good a Wa) as (A1 & A2 & _).
  rewrite Ka in A2. split; [lia|]. split; [lia|]. split; [lia|]. split.
  - intros s c Hs Hc. unfold plus_cell. pose proof (cell_range a s c Wa). destruct (acc a s); [|lia].
    destruct (c =? k); [lia|]. destruct (c =? k + 1); lia.
  - intros s Hs. unfold plus_tok. destruct (_ =? _); lia.
Qed.

Lemma plus_edge a k fa s l t token : well_formed a -> get_nsymbols a = k -> quiet_accepts a -> well_formed fa ->
  shape fa (zlen (table a) + 1) k false (plus_cell a k (zlen (table a))) (plus_tok (zlen (table a)) token) ->
  (edge fa s l t <-> (acc a s = true /\ l = None /\ (t = zlen (table a) \/ t = 0)) \/ edge a s l t).
Proof.
  intros Wa Ka Q W H. rewrite (shape_edge _ _ _ _ _ _ _ _ W H).
  pose proof (well_formed_good a Wa) as (A1 & A2 & _). rewrite Ka in A2.
  pose proof (fun X => quiet_cells a s Wa Q (proj1 (acc_tok a s) X)) as QC. rewrite Ka in QC.
  set (na := zlen (table a)) in *. split.
  - intros (Rs & N & E). unfold plus_cell in E. destruct (acc a s) eqn:A.
    + destruct l as [x|].
      * right. destruct E as [R E]. destruct (Z.eqb_spec x k); [lia|]. destruct (Z.eqb_spec x (k + 1)); [lia|].
        split; [exact N|]. rewrite Ka. split; assumption.
      * left. rewrite !Z.eqb_refl in E. destruct (Z.eqb_spec (k + 1) k); [lia|].
        split; [reflexivity|]. split; [reflexivity|]. lia.
    + right. split; [exact N|]. rewrite Ka. exact E.
  - intros [(A & -> & Ht)|E].
    + pose proof (acc_out a s Wa A) as R. fold na in R. split; [lia|]. split; [lia|]. unfold plus_cell. rewrite A.
      rewrite !Z.eqb_refl. destruct (Z.eqb_spec (k + 1) k); [lia|]. lia.
    + destruct (edge_range _ _ _ _ Wa E) as [Rs Rt]. fold na in Rs, Rt. split; [lia|]. split; [lia|]. unfold plus_cell.
      destruct E as [N E]. rewrite Ka in E. destruct (acc a s) eqn:A; [|exact E]. destruct l as [x|].
      * destruct E as [R E]. split; [exact R|]. destruct (Z.eqb_spec x k); [lia|]. destruct (Z.eqb_spec x (k + 1)); [lia|]. exact E.
      * destruct (QC eq_refl); exfalso; destruct E; congruence.
Qed.

Lemma plus_correct a token : well_formed a -> 0 <= token -> quiet_accepts a ->
  exists fa, plus a token = Ok fa /\ well_formed fa /\ get_nsymbols fa = get_nsymbols a /\ is_deterministic fa = false /\
  final_accepts fa /\
  (forall w tk, recognises fa w tk <->
     tk = token /\ exists ws, ws <> [] /\ w = List.concat ws /\ Forall (fun u => exists t, recognises a u t) ws).
Proof.
  intros Wa Ht Q. set (k := get_nsymbols a).
  destruct (plus_shape a k token Wa eq_refl Ht) as (fa & E & H).
  { intros s N. apply (quiet_cells a s Wa Q N). }
  pose proof (shape_well_formed _ _ _ _ _ _ H (plus_good a k token Wa eq_refl Ht)) as W.
  pose proof (fun s l t => plus_edge a k fa s l t token Wa eq_refl Q W H) as Ed.
  pose proof (well_formed_good a Wa) as (A1 & A2 & A3 & _).
  set (na := zlen (table a)) in *.
  exists fa. split; [exact E|]. split; [exact W|]. split; [apply (shape_nsym _ _ _ _ _ _ H)|]. split; [apply (sh_det _ _ _ _ _ _ H)|].
  split.
  { apply (shape_final _ _ _ _ _ W H). intros s c Rs Rc T. unfold plus_tok in T. unfold plus_cell.
    destruct (Z.eqb_spec s na) as [->|]; [|congruence]. rewrite acc_beyond by (try assumption; fold na; lia).
    apply cell_beyond; [assumption | fold na; lia]. }
  intros w tk. rewrite recognises_iff by assumption. split.
  - intros (s & P & T & N). apply (shape_token _ _ _ _ _ _ _ _ W H N) in T as [Rs T].
    unfold plus_tok in T. destruct (Z.eqb_spec s na) as [->|]; [|congruence]. split; [congruence|].
    assert (forall s0 w0 u0, epath (edge fa) s0 w0 u0 -> u0 = na -> 0 <= s0 < na ->
              exists u m ws, w0 = u ++ List.concat ws /\ epath (edge a) s0 u m /\ acc a m = true /\
                Forall (fun u => exists t, recognises a u t) ws) as Split.
    { intros s0 w0 u0 P0. induction P0 as [s0|s0 l t0 w0 u0 He P0 IH]; intros -> R0; [lia|].
      apply Ed in He as [(Aa & -> & [-> | ->])|He].
      - destruct (epath_stuck (edge fa) na w0 na) as [-> _]; [|exact P0|].
        { intros l u He. apply Ed in He as [(A & _)|He].
          - pose proof (acc_out a _ Wa A) as R. fold na in R. lia.
          - pose proof (edge_range a _ _ _ Wa He) as [R _]. fold na in R. lia. }
        exists [], s0, []. split; [reflexivity|]. split; [constructor|]. split; [exact Aa | constructor].
      - destruct (IH eq_refl ltac:(lia)) as (u & m & ws & -> & Pa & Am & F).
        exists [], s0, (u :: ws). split; [reflexivity|]. split; [constructor|]. split; [exact Aa|].
        constructor; [|exact F]. apply recognises_some; [assumption|]. eauto.
      - destruct (edge_range a _ _ _ Wa He) as [_ Rt]. destruct (IH eq_refl Rt) as (u & m & ws & -> & Pa & Am & F).
        exists (label l u), m, ws. split; [destruct l; reflexivity|]. split; [econstructor; eassumption|]. split; assumption. }
    destruct (Split 0 w na P eq_refl ltac:(lia)) as (u & m & ws & -> & Pa & Am & F).
    exists (u :: ws). split; [discriminate|]. split; [reflexivity|]. constructor; [|exact F].
    apply recognises_some; [assumption|]. eauto.
  - intros (-> & ws & Ne & -> & F). exists na. split; [|split; [|lia]].
    + assert (forall s u m, epath (edge a) s u m -> epath (edge fa) s u m) as Emb.
      { intros s u m Pa. replace s with (s + 0) by lia. replace m with (m + 0) by lia. apply (epath_embed (edge a)); [|exact Pa].
        intros s1 l1 t1 E1. replace (s1 + 0) with s1 by lia. replace (t1 + 0) with t1 by lia. apply Ed. right; exact E1. }
      induction ws as [|u ws IH]; [congruence|]. inversion F as [|? ? Fu Fw]; subst.
      apply recognises_some in Fu as (m & Pa & Am); [|assumption]. cbn [List.concat].
      apply (epath_app _ _ _ m); [apply Emb; exact Pa|]. destruct ws as [|u' ws].
      * cbn. apply (epath_silent _ m na); [apply Ed; left; auto | constructor].
      * apply (epath_silent _ m 0); [apply Ed; left; auto|]. apply IH; [discriminate | exact Fw].
    + assert (token <> -1) as Nt by lia. apply (shape_token _ _ _ _ _ _ _ _ W H Nt). split; [lia|]. unfold plus_tok. rewrite Z.eqb_refl. reflexivity.
Qed.

(* ------------------------------------------------------------------ *)
Lemma maybe_correct a token : well_formed a -> 0 <= token -> final_accepts a ->
  exists fa, maybe a token = Ok fa /\ well_formed fa /\ get_nsymbols fa = get_nsymbols a /\ is_deterministic fa = false /\
  final_accepts fa /\
  (forall w tk, recognises fa w tk <-> tk = token /\ (w = [] \/ exists t, recognises a w t)).
Proof.
  intros Wa Ht F. set (k := get_nsymbols a).
  destruct (maybe_shape a k token Wa eq_refl Ht) as (fa & cf & E & [M1 M2 M3 M4 M5] & H).
  { intros s N. apply (quiet_cells a s Wa (final_quiet a F) N). }
  pose proof (well_formed_good a Wa) as (A1 & A2 & A3 & _).
  set (na := zlen (table a)) in *. fold k in A2.
  assert (well_formed fa) as W.
  { apply (shape_well_formed _ _ _ _ _ _ H). split; [lia|]. split; [exact A2|]. split; [lia|]. split.
    - intros s c Rs Rc. destruct (Z.eq_dec s 0) as [->|].
      + destruct (Z.eq_dec c k) as [->|]; [destruct (M1 0 ltac:(lia) ltac:(left; reflexivity)); lia|].
        destruct (Z.eq_dec c (k + 1)) as [->|]; [rewrite M2; lia|]. rewrite M3; lia.
      + destruct (Z.eq_dec s (na + 1)) as [->|]; [rewrite M5; lia|].
        destruct (Z.eq_dec c k) as [->|].
        * destruct (acc a (s - 1)) eqn:A.
          -- destruct (M1 s ltac:(lia) ltac:(right; right; exact A)); lia.
          -- rewrite M4 by (auto; lia). pose proof (shift_range 1 _ _ ltac:(lia) (cell_range a (s - 1) k Wa)). fold na in H0. lia.
        * rewrite M4 by (auto; lia). pose proof (shift_range 1 _ _ ltac:(lia) (cell_range a (s - 1) c Wa)). fold na in H0. lia.
    - intros s Rs. destruct (_ =? _); lia. }
  assert (forall s l t, edge fa s l t <->
    (0 <= s < na + 1 /\ chain a na s /\ l = None /\ t = cf s k) \/ (s = 0 /\ l = None /\ t = 1) \/
    (exists s' t', s = s' + 1 /\ t = t' + 1 /\ edge a s' l t')) as Ed.
  { intros s l t. rewrite (shape_edge _ _ _ _ _ _ _ _ W H). split.
    - intros (Rs & N & X). destruct (Z.eq_dec s (na + 1)) as [->|].
      { exfalso. destruct l as [x|]; [destruct X as [Rx X]; rewrite M5 in X by lia; congruence|].
        destruct X as [X|X]; rewrite M5 in X by lia; congruence. }
      destruct (Z.eq_dec s 0) as [->|].
      { destruct l as [x|]; [exfalso; destruct X as [Rx X]; rewrite M3 in X by lia; congruence|].
        destruct X as [X|X]; [left; split; [lia|]; split; [left; reflexivity | auto] | right; left; split; [reflexivity|]; split; [reflexivity|]; rewrite <- X; exact M2]. }
      destruct (acc a (s - 1)) eqn:A.
      + left. split; [lia|]. split; [right; right; exact A|].
        assert (forall c, 0 <= c < k + 2 -> c <> k -> cf s c = -1) as Z1.
        { intros c Rc Nc. rewrite M4 by (auto; lia).
          destruct (Z.eq_dec (cell a (s - 1) c) (-1)) as [->|Nn]; [reflexivity|]. exfalso. apply acc_tok in A. apply Nn.
          eapply (F (s - 1) (tok a (s - 1))); [apply accepts_iff; auto | exact A | apply cell_step; auto]. }
        destruct l as [x|]; [exfalso; destruct X as [Rx X]; rewrite Z1 in X by lia; congruence|].
        destruct X as [X|X]; [auto|]. rewrite Z1 in X by lia. congruence.
      + right; right. assert (t <> -1 /\ match l with Some x => 0 <= x < k /\ shift 1 (cell a (s - 1) x) = t
              | None => shift 1 (cell a (s - 1) k) = t \/ shift 1 (cell a (s - 1) (k + 1)) = t end) as Y.
        { split; [exact N|]. destruct l as [x|].
          - destruct X as [Rx X]. split; [exact Rx|]. rewrite <- M4 by (auto; lia). exact X.
          - rewrite <- !M4 by (auto; lia). exact X. }
        apply (shift_edge a 1 (s - 1) l t k Wa eq_refl ltac:(lia)) in Y as (t' & -> & E').
        exists (s - 1), t'. split; [lia|]. split; [reflexivity | exact E'].
    - intros [(Rs & C & -> & ->)|[(-> & -> & ->)|(s' & t' & -> & -> & X)]].
      + destruct (M1 s Rs C) as [R1 _]. split; [lia|]. split; [lia|]. left; reflexivity.
      + split; [lia|]. split; [lia|]. right. exact M2.
      + destruct (edge_range _ _ _ _ Wa X) as [Rs Rt]. fold na in Rs, Rt.
        assert (acc a s' = false) as A. { destruct (acc a s') eqn:A; [|reflexivity]. exfalso. exact (final_no_edge a s' l t' Wa F A X). }
        destruct (proj2 (shift_edge a 1 s' l (t' + 1) k Wa eq_refl ltac:(lia)) (ex_intro _ t' (conj eq_refl X))) as [N Y].
        split; [lia|]. split; [exact N|]. destruct l as [x|].
        * destruct Y as [Rx Y]. split; [exact Rx|]. rewrite M4 by (try lia; right; replace (s' + 1 - 1) with s' by lia; exact A).
          replace (s' + 1 - 1) with s' by lia. exact Y.
        * rewrite !M4 by (try lia; right; replace (s' + 1 - 1) with s' by lia; exact A).
          replace (s' + 1 - 1) with s' by lia. exact Y. }
  exists fa. split; [exact E|]. split; [exact W|]. split; [apply (shape_nsym _ _ _ _ _ _ H)|]. split; [apply (sh_det _ _ _ _ _ _ H)|].
  split.
  { apply (shape_final _ _ _ _ _ W H). intros s c Rs Rc T. cbn beta in T. destruct (Z.eqb_spec s (na + 1)) as [->|]; [|congruence]. apply M5; exact Rc. }
  intros w tk. rewrite recognises_iff by assumption. split.
  - intros (s & P & T & N). apply (shape_token _ _ _ _ _ _ _ _ W H N) in T as [Rs T]. cbn beta in T.
    destruct (Z.eqb_spec s (na + 1)) as [->|]; [|congruence]. split; [congruence|].
    assert (forall s0 w0 u0, epath (edge fa) s0 w0 u0 -> 0 < s0 -> chain a na s0 -> w0 = []) as OnChain.
    { intros s0 w0 u0 P0. induction P0 as [s0|s0 l t0 w0 u0 He P0 IH]; intros R0 C0; [reflexivity|].
      apply Ed in He as [(Rs0 & C & -> & ->)|[(-> & _)|(s' & t' & -> & -> & X)]]; [|lia|].
      - destruct (M1 s0 Rs0 C) as [R1 C1]. cbn [label]. apply IH; [lia | exact C1].
      - exfalso. pose proof (edge_range a _ _ _ Wa X) as [R _]. destruct C0 as [|[C0|C0]]; [lia| |].
        + fold na in R. lia.
        + replace (s' + 1 - 1) with s' in C0 by lia. exact (final_no_edge a s' _ t' Wa F C0 X). }
    assert (forall s0 w0 u0, epath (edge fa) s0 w0 u0 -> u0 = na + 1 -> 1 <= s0 <= na ->
              exists m, epath (edge a) (s0 - 1) w0 m /\ acc a m = true) as InA.
    { intros s0 w0 u0 P0. induction P0 as [s0|s0 l t0 w0 u0 He P0 IH]; intros -> R0; [lia|].
      apply Ed in He as [(Rs0 & C & -> & ->)|[(-> & _)|(s' & t' & -> & -> & X)]]; [|lia|].
      - destruct (M1 s0 Rs0 C) as [R1 C1]. cbn [label]. pose proof (OnChain _ _ _ P0 ltac:(lia) C1) as ->.
        exists (s0 - 1). split; [constructor|]. destruct C as [|[|C]]; [lia|lia|exact C].
      - pose proof (edge_range a _ _ _ Wa X) as [_ R]. fold na in R. destruct (IH eq_refl ltac:(lia)) as (m & Pa & Am).
        exists m. split; [|exact Am]. replace (s' + 1 - 1) with s' by lia. replace (t' + 1 - 1) with t' in Pa by lia. econstructor; eassumption. }
    remember (na + 1) as e eqn:Ee. inversion P as [s0 Es Ew|s0 l t w' u He P' Es Ew Eu]; subst; [left; reflexivity|].
    apply Ed in He as [(Rs0 & C & -> & ->)|[(_ & -> & ->)|(s' & t' & Es & -> & X)]].
    + destruct (M1 0 Rs0 C) as [R1 C1]. left. cbn [label]. exact (OnChain _ _ _ P' ltac:(lia) C1).
    + right. cbn [label]. apply recognises_some; [assumption|]. apply (InA 1 w' (na + 1) P' eq_refl). lia.
    + exfalso. pose proof (edge_range a _ _ _ Wa X) as [R _]. lia.
  - intros (-> & Hw). exists (na + 1). split; [|split; [|lia]].
    + assert (forall d s, na + 1 - s <= Z.of_nat d -> 0 <= s <= na + 1 -> chain a na s -> epath (edge fa) s [] (na + 1)) as Reach.
      { induction d as [|d IH]; intros s Hd Rs C.
        - assert (s = na + 1) as -> by lia. constructor.
        - destruct (Z.eq_dec s (na + 1)) as [->|]; [constructor|]. destruct (M1 s ltac:(lia) C) as [R1 C1].
          apply (epath_silent _ s (cf s k)); [apply Ed; left; split; [lia|]; auto|]. apply IH; [lia|lia|exact C1]. }
      destruct Hw as [->|Hw].
      * apply (Reach (Z.to_nat (na + 1))); [lia|lia|left; reflexivity].
      * apply recognises_some in Hw as (m & Pa & Am); [|assumption]. pose proof (acc_out a m Wa Am) as Rm. fold na in Rm.
        apply (epath_silent _ 0 (0 + 1)); [apply Ed; right; left; auto|]. rewrite <- (app_nil_r w).
        apply (epath_app _ _ _ (m + 1)).
        -- apply (epath_embed (edge a)); [|exact Pa]. intros s1 l1 t1 E1. apply Ed. right; right; eauto.
        -- apply (Reach (Z.to_nat (na + 1))); [lia|lia|]. right; right. replace (m + 1 - 1) with m by lia. exact Am.
    + assert (token <> -1) as Nt by lia. apply (shape_token _ _ _ _ _ _ _ _ W H Nt). split; [lia|]. rewrite Z.eqb_refl. reflexivity.
Qed.

Lemma star_correct a token : well_formed a -> 0 <= token -> quiet_accepts a ->
  exists fa, star a token = Ok fa /\ well_formed fa /\ get_nsymbols fa = get_nsymbols a /\ is_deterministic fa = false /\
  final_accepts fa /\
  (forall w tk, recognises fa w tk <->
     tk = token /\ exists ws, w = List.concat ws /\ Forall (fun u => exists t, recognises a u t) ws).
Proof.
  intros W Ht Q. destruct (plus_correct a token W Ht Q) as (p & Ep & Wp & Kp & _ & Fp & Rp).
  destruct (maybe_correct p token Wp Ht Fp) as (m & Em & Wm & Km & Dm & Fm & Rm).
  exists m. unfold star. rewrite Ep. cbn [bind]. split; [exact Em|]. split; [exact Wm|]. split; [congruence|]. split; [exact Dm|]. split; [exact Fm|].
  intros w tk. rewrite Rm. split.
  - intros (-> & [->|(t & R)]); split; try reflexivity.
    + exists []. split; [reflexivity | constructor].
    + apply Rp in R as (_ & ws & _ & E & F). eauto.
  - intros (-> & ws & -> & F). split; [reflexivity|]. destruct ws as [|u ws]; [left; reflexivity|]. right. exists token.
    apply Rp. split; [reflexivity|]. exists (u :: ws). split; [discriminate|]. auto.
Qed.
