(** The languages of the automata that unite, concat, plus, star and maybe build. *)
From Verif Require Import Prelude M_Automaton S_Automaton P_Automaton P_Automaton2.
Local Open Scope Z_scope.

Definition label (l : option Z) (w : list Z) : list Z := match l with Some x => x :: w | None => w end.

Inductive epath (E : Z -> option Z -> Z -> Prop) : Z -> list Z -> Z -> Prop :=
| epath_stop s : epath E s [] s
| epath_move s l t w u : E s l t -> epath E t w u -> epath E s (label l w) u.

Definition edge (fa : automaton) (s : Z) (l : option Z) (t : Z) : Prop :=
  t <> -1 /\
  match l with
  | Some x => 0 <= x < get_nsymbols fa /\ cell fa s x = t
  | None => cell fa s (get_nsymbols fa) = t \/ cell fa s (get_nsymbols fa + 1) = t
  end.

Lemma cell_step fa s c t : well_formed fa -> cell fa s c = t -> t <> -1 -> step fa s c = Ok t.
Proof.
  intros W E N. destruct (cell_out fa s c W) as [Hs Hc]; [congruence|].
  pose proof (well_formed_shape fa W) as H. rewrite (shape_step _ _ _ _ _ _ s c H Hs); [congruence|].
  rewrite <- (sh_nc _ _ _ _ _ _ H). exact Hc.
Qed.

Lemma path_epath fa s w t : well_formed fa -> (path fa s w t <-> epath (edge fa) s w t).
Proof.
  intros W. split.
  - induction 1 as [s|s x t w u Hx Hs Ht _ IH|s e t w u He Hs Ht _ IH].
    + constructor.
    + apply (epath_move (edge fa) s (Some x) t w u); [|exact IH]. split; [exact Ht|]. split; [exact Hx | apply step_cell; exact Hs].
    + apply (epath_move (edge fa) s None t w u); [|exact IH]. split; [exact Ht|].
      apply step_cell in Hs. destruct He as [-> | ->]; auto.
  - induction 1 as [s|s [x|] t w u [Ht He] _ IH]; cbn [label].
    + constructor.
    + destruct He as [Hx He]. eapply path_symbol; [exact Hx | apply cell_step; eassumption | exact Ht | exact IH].
    + destruct He as [He|He]; (eapply path_silent; [| apply cell_step; eassumption | exact Ht | exact IH]); auto.
Qed.

Lemma accepts_iff fa s t : well_formed fa -> t <> -1 -> (accepts fa s = Ok t <-> tok fa s = t).
Proof.
  intros W N. split.
  - intros H. apply accepts_tok in H. tauto.
  - intros E. destruct (tok_out fa s W) as [Hs _]; [congruence|].
    rewrite (shape_accepts _ _ _ _ _ _ s (well_formed_shape fa W) Hs). congruence.
Qed.

Lemma recognises_iff fa w tk : well_formed fa ->
  (recognises fa w tk <-> exists s, epath (edge fa) 0 w s /\ tok fa s = tk /\ tk <> -1).
Proof.
  intros W. unfold recognises. split; intros (s & P & A & N); exists s.
  - split; [apply path_epath; assumption|]. split; [apply accepts_iff; assumption | exact N].
  - split; [apply path_epath; assumption|]. split; [apply accepts_iff; assumption | exact N].
Qed.

Lemma edge_range fa s l t : well_formed fa -> edge fa s l t -> 0 <= s < zlen (table fa) /\ 0 <= t < zlen (table fa).
Proof.
  intros W [N H]. destruct l as [x|].
  - destruct H as [_ H]. pose proof (cell_range fa s x W). destruct (cell_out fa s x W); [congruence|]. lia.
  - destruct H as [H|H];
      [pose proof (cell_range fa s (get_nsymbols fa) W); destruct (cell_out fa s (get_nsymbols fa) W)
      |pose proof (cell_range fa s (get_nsymbols fa + 1) W); destruct (cell_out fa s (get_nsymbols fa + 1) W)]; try congruence; lia.
Qed.

Lemma shape_edge fa n k cf tf s l t : well_formed fa -> shape fa n k false cf tf ->
  (edge fa s l t <-> 0 <= s < n /\ t <> -1 /\
   match l with Some x => 0 <= x < k /\ cf s x = t | None => cf s k = t \/ cf s (k + 1) = t end).
Proof.
  intros W H. pose proof (sh_n _ _ _ _ _ _ H) as En. pose proof (shape_nsym _ _ _ _ _ _ H) as Ek.
  pose proof (sh_nc _ _ _ _ _ _ H) as Ec. cbn iota in Ec. pose proof (well_formed_good fa W) as (_ & K & _). rewrite Ek in K. split.
  - intros E. destruct (edge_range _ _ _ _ W E) as [Rs _]. rewrite En in Rs. destruct E as [N E]. rewrite Ek in E.
    split; [exact Rs|]. split; [exact N|]. destruct l as [x|].
    + destruct E as [Hx E]. split; [exact Hx|]. rewrite <- (sh_cell _ _ _ _ _ _ H) by lia. exact E.
    + destruct E as [E|E]; [left|right]; rewrite <- (sh_cell _ _ _ _ _ _ H) by lia; exact E.
  - intros (Rs & N & E). split; [exact N|]. rewrite Ek. destruct l as [x|].
    + destruct E as [Hx E]. split; [exact Hx|]. rewrite (sh_cell _ _ _ _ _ _ H) by lia. exact E.
    + destruct E as [E|E]; [left|right]; rewrite (sh_cell _ _ _ _ _ _ H) by lia; exact E.
Qed.

Lemma shape_token fa n k det cf tf s tk : well_formed fa -> shape fa n k det cf tf -> tk <> -1 ->
  (tok fa s = tk <-> 0 <= s < n /\ tf s = tk).
Proof.
  intros W H N. pose proof (sh_n _ _ _ _ _ _ H) as En. split.
  - intros E. destruct (tok_out fa s W) as [Rs _]; [congruence|]. rewrite En in Rs. split; [exact Rs|].
    rewrite <- (sh_tok _ _ _ _ _ _ H) by exact Rs. exact E.
  - intros [Rs E]. rewrite (sh_tok _ _ _ _ _ _ H) by exact Rs. exact E.
Qed.

Lemma epath_embed (E1 E2 : Z -> option Z -> Z -> Prop) o s w t :
  (forall s l t, E1 s l t -> E2 (s + o) l (t + o)) -> epath E1 s w t -> epath E2 (s + o) w (t + o).
Proof. intros H. induction 1; econstructor; [apply H; eassumption | assumption]. Qed.

Lemma epath_app E s u m v t : epath E s u m -> epath E m v t -> epath E s (u ++ v) t.
Proof.
  induction 1 as [|s l t' w u He _ IH]; intros Q; [exact Q|].
  replace (label l w ++ v) with (label l (w ++ v)) by (destruct l; reflexivity). econstructor; [exact He | apply IH; exact Q].
Qed.

Lemma epath_silent (E : Z -> option Z -> Z -> Prop) s t w u : E s None t -> epath E t w u -> epath E s w u.
Proof. intros H P. exact (epath_move E s None t w u H P). Qed.

Lemma epath_stuck (E : Z -> option Z -> Z -> Prop) s w t : (forall l u, ~ E s l u) -> epath E s w t -> w = [] /\ t = s.
Proof. intros H P. destruct P as [|s l t w u He _]; [auto|]. exfalso. eapply H; exact He. Qed.

(** A region of the big automaton that copies the small one and cannot be left. *)
Lemma epath_region (E1 E2 : Z -> option Z -> Z -> Prop) (D : Z -> Prop) o :
  (forall s l t, D s -> E2 (s + o) l t -> exists t', t = t' + o /\ D t' /\ E1 s l t') ->
  forall s w t, epath E2 s w t -> forall s', s = s' + o -> D s' -> exists t', t = t' + o /\ D t' /\ epath E1 s' w t'.
Proof.
  intros H s w t P. induction P as [s|s l t w u He P IH]; intros s' -> Ds.
  - exists s'. split; [reflexivity|]. split; [exact Ds | constructor].
  - destruct (H _ _ _ Ds He) as (t' & -> & Dt & Et).
    destruct (IH t' eq_refl Dt) as (u' & -> & Du & Pu). exists u'. split; [reflexivity|]. split; [exact Du|].
    econstructor; eassumption.
Qed.

Lemma epath_dom (E : Z -> option Z -> Z -> Prop) (D : Z -> Prop) s w t : (forall s l t, E s l t -> D t) -> epath E s w t -> D s -> D t.
Proof. intros H. induction 1; eauto. Qed.

(* ------------------------------------------------------------------ *)
(** unite *)

Lemma unite_good a b k : well_formed a -> well_formed b -> get_nsymbols a = k -> get_nsymbols b = k ->
  good_cells (1 + zlen (table a) + zlen (table b)) k false (unite_cell a b k (zlen (table a))) (unite_tok a b (zlen (table a))).
Proof.
  intros Wa Wb Ka Kb. pose proof (well_formed_good a Wa) as (A1 & A2 & _). pose proof (well_formed_good b Wb) as (B1 & _).
  rewrite Ka in A2. split; [lia|]. split; [lia|]. split; [lia|]. split.
  - intros s c Hs Hc. unfold unite_cell. destruct (s =? 0).
    + destruct (c =? k); [lia|]. destruct (c =? k + 1); lia.
    + destruct (s <? 1 + _).
      * pose proof (shift_range 1 _ _ ltac:(lia) (cell_range a (s - 1) c Wa)). lia.
      * pose proof (shift_range (1 + zlen (table a)) _ _ ltac:(lia) (cell_range b (s - (1 + zlen (table a))) c Wb)). lia.
  - intros s Hs. unfold unite_tok. destruct (s =? 0); [lia|].
    destruct (s <? _); apply tok_range; assumption.
Qed.

Lemma edge_cells a s l t : edge a s l t <-> t <> -1 /\ exists c, cell a s c = t /\
  match l with Some x => c = x /\ 0 <= x < get_nsymbols a | None => c = get_nsymbols a \/ c = get_nsymbols a + 1 end.
Proof.
  unfold edge. destruct l as [x|]; split.
  - intros (N & R & E). split; [exact N|]. exists x. tauto.
  - intros (N & c & E & -> & R). tauto.
  - intros (N & [E|E]); split; try exact N; eexists; (split; [exact E|]); auto.
  - intros (N & c & E & [-> | ->]); tauto.
Qed.

Lemma shift_edge a o s l t k : well_formed a -> get_nsymbols a = k -> 0 <= o ->
  (t <> -1 /\ match l with Some x => 0 <= x < k /\ shift o (cell a s x) = t
              | None => shift o (cell a s k) = t \/ shift o (cell a s (k + 1)) = t end)
  <-> exists t', t = t' + o /\ edge a s l t'.
Proof.
  intros W K Ho. assert (forall c, t <> -1 -> (shift o (cell a s c) = t <-> exists t', t = t' + o /\ t' <> -1 /\ cell a s c = t')) as X.
  { intros c N. pose proof (cell_range a s c W) as R. split.
    - intros E. exists (cell a s c). destruct (Z.eq_dec (cell a s c) (-1)) as [Z0|Z0].
      + rewrite Z0, shift_neg in E. congruence.
      + rewrite shift_ge in E by lia. split; [lia|]. split; [exact Z0 | reflexivity].
    - intros (t' & -> & N' & E). rewrite E. apply shift_ge; [exact N' | lia]. }
  unfold edge. rewrite K. split.
  - intros (N & E). destruct l as [x|].
    + destruct E as [R E]. apply X in E as (t' & -> & N' & E); [|exact N]. exists t'. tauto.
    + destruct E as [E|E]; (apply X in E as (t' & -> & N' & E); [|exact N]); exists t'; tauto.
  - intros (t' & -> & N' & E). assert (0 <= t') as T.
    { destruct (edge_range a s l t' W) as [_ R]; [split; [exact N'|]; rewrite K; exact E | lia]. }
    split; [lia|]. destruct l as [x|].
    + destruct E as [R E]. split; [exact R|]. apply X; [lia|]. eauto.
    + destruct E as [E|E]; [left|right]; (apply X; [lia|]); eauto.
Qed.

Lemma unite_edge a b k fa s l t : well_formed a -> well_formed b -> get_nsymbols a = k -> get_nsymbols b = k ->
  well_formed fa ->
  shape fa (1 + zlen (table a) + zlen (table b)) k false (unite_cell a b k (zlen (table a))) (unite_tok a b (zlen (table a))) ->
  (edge fa s l t <->
   (s = 0 /\ l = None /\ (t = 1 \/ t = 1 + zlen (table a))) \/
   (exists s' t', s = s' + 1 /\ t = t' + 1 /\ edge a s' l t') \/
   (exists s' t', s = s' + (1 + zlen (table a)) /\ t = t' + (1 + zlen (table a)) /\ edge b s' l t')).
Proof.
  intros Wa Wb Ka Kb W H. rewrite (shape_edge _ _ _ _ _ _ _ _ W H).
  pose proof (well_formed_good a Wa) as (A1 & A2 & _). pose proof (well_formed_good b Wb) as (B1 & _). rewrite Ka in A2.
  set (na := zlen (table a)) in *. set (nb := zlen (table b)) in *. split.
  - intros (Rs & N & E). unfold unite_cell in E. destruct (Z.eqb_spec s 0) as [->|].
    + left. destruct l as [x|].
      * exfalso. destruct E as [R E]. destruct (Z.eqb_spec x k); [lia|]. destruct (Z.eqb_spec x (k + 1)); lia.
      * split; [reflexivity|]. split; [reflexivity|]. rewrite !Z.eqb_refl in E. destruct (Z.eqb_spec (k + 1) k); [lia|]. lia.
    + right. destruct (Z.ltb_spec s (1 + na)).
      * left. destruct (proj1 (shift_edge a 1 (s - 1) l t k Wa Ka ltac:(lia)) (conj N E)) as (t' & -> & E').
        exists (s - 1), t'. split; [lia|]. split; [reflexivity | exact E'].
      * right. destruct (proj1 (shift_edge b (1 + na) (s - (1 + na)) l t k Wb Kb ltac:(lia)) (conj N E)) as (t' & -> & E').
        exists (s - (1 + na)), t'. split; [lia|]. split; [reflexivity | exact E'].
  - intros [(-> & -> & Ht)|[(s' & t' & -> & -> & E)|(s' & t' & -> & -> & E)]].
    + split; [lia|]. split; [lia|]. unfold unite_cell. rewrite !Z.eqb_refl. destruct (Z.eqb_spec (k + 1) k); [lia|]. lia.
    + destruct (edge_range _ _ _ _ Wa E) as [Rs Rt]. fold na in Rs, Rt.
      destruct (proj2 (shift_edge a 1 s' l (t' + 1) k Wa Ka ltac:(lia)) (ex_intro _ t' (conj eq_refl E))) as [N X].
      split; [lia|]. split; [exact N|]. unfold unite_cell. destruct (Z.eqb_spec (s' + 1) 0); [lia|].
      destruct (Z.ltb_spec (s' + 1) (1 + na)); [|lia]. replace (s' + 1 - 1) with s' by lia. exact X.
    + destruct (edge_range _ _ _ _ Wb E) as [Rs Rt]. fold nb in Rs, Rt.
      destruct (proj2 (shift_edge b (1 + na) s' l (t' + (1 + na)) k Wb Kb ltac:(lia)) (ex_intro _ t' (conj eq_refl E))) as [N X].
      split; [lia|]. split; [exact N|]. unfold unite_cell. destruct (Z.eqb_spec (s' + (1 + na)) 0); [lia|].
      destruct (Z.ltb_spec (s' + (1 + na)) (1 + na)); [lia|]. replace (s' + (1 + na) - (1 + na)) with s' by lia. exact X.
Qed.

Lemma unite_correct a b : well_formed a -> well_formed b -> get_nsymbols a = get_nsymbols b ->
  exists fa, unite a b = Ok fa /\ well_formed fa /\ get_nsymbols fa = get_nsymbols a /\ is_deterministic fa = false /\
  (final_accepts a -> final_accepts b -> final_accepts fa) /\
  (forall w tk, recognises fa w tk <-> recognises a w tk \/ recognises b w tk).
Proof.
  intros Wa Wb K. set (k := get_nsymbols a). assert (get_nsymbols b = k) as Kb by (unfold k; congruence).
  destruct (unite_shape a b k Wa Wb eq_refl Kb) as (fa & E & H).
  pose proof (shape_well_formed _ _ _ _ _ _ H (unite_good a b k Wa Wb eq_refl Kb)) as W.
  pose proof (fun s l t => unite_edge a b k fa s l t Wa Wb eq_refl Kb W H) as Ed.
  pose proof (well_formed_good a Wa) as (A1 & A2 & A3 & _). pose proof (well_formed_good b Wb) as (B1 & B2 & B3 & _).
  pose proof (sh_nc _ _ _ _ _ _ (well_formed_shape a Wa)) as NA. pose proof (sh_nc _ _ _ _ _ _ (well_formed_shape b Wb)) as NB.
  set (na := zlen (table a)) in *. set (nb := zlen (table b)) in *.
  exists fa. split; [exact E|]. split; [exact W|]. split; [apply (shape_nsym _ _ _ _ _ _ H)|]. split; [apply (sh_det _ _ _ _ _ _ H)|].
  split.
  { intros Fa Fb s tk x t A N S. destruct (Z.eq_dec t (-1)) as [|Nt]; [assumption|exfalso].
    pose proof (step_bounds _ _ _ _ S) as [Rs Rx]. rewrite (sh_n _ _ _ _ _ _ H) in Rs. rewrite (sh_nc _ _ _ _ _ _ H) in Rx.
    rewrite (shape_accepts _ _ _ _ _ _ s H Rs) in A. rewrite (shape_step _ _ _ _ _ _ s x H Rs Rx) in S.
    injection A as A. injection S as S. unfold unite_tok in A. unfold unite_cell in S.
    destruct (s =? 0); [congruence|]. destruct (s <? 1 + na).
    - destruct (Z.eq_dec (cell a (s - 1) x) (-1)) as [Zc|Zc]; [rewrite Zc, shift_neg in S; congruence|].
      apply Zc. apply (Fa (s - 1) tk x); [apply accepts_iff; assumption | exact N | apply cell_step; auto].
    - destruct (Z.eq_dec (cell b (s - (1 + na)) x) (-1)) as [Zc|Zc]; [rewrite Zc, shift_neg in S; congruence|].
      apply Zc. apply (Fb (s - (1 + na)) tk x); [apply accepts_iff; assumption | exact N | apply cell_step; auto]. }
  intros w tk. rewrite !recognises_iff by assumption. split.
  - intros (s & P & T & N). apply (shape_token _ _ _ _ _ _ _ _ W H N) in T as [Rs T].
    inversion P as [s0 Es|s0 l t w' u He P' Es Ew Eu]; subst.
    + exfalso. unfold unite_tok in N. cbn in N. congruence.
    + apply Ed in He as [(_ & -> & [-> | ->])|[(s' & t' & E0 & -> & E')|(s' & t' & E0 & -> & E')]].
      * left. cbn [label]. destruct (epath_region (edge a) (edge fa) (fun s => 0 <= s < na) 1) with (s := 1) (w := w') (t := s) (s' := 0)
          as (u & -> & Du & Pu); try lia; try assumption.
        { intros s1 l1 t1 D1 He. apply Ed in He as [(Es & _)|[(s2 & t2 & Es & -> & E2)|(s2 & t2 & Es & -> & E2)]]; [lia| |].
          - assert (s2 = s1) as -> by lia. exists t2. split; [reflexivity|]. split; [apply (edge_range a s1 l1 t2 Wa E2) | exact E2].
          - pose proof (edge_range b _ _ _ Wb E2). lia. }
        exists u. split; [exact Pu|]. split; [|exact N]. unfold unite_tok.
        destruct (Z.eqb_spec (u + 1) 0); [lia|]. destruct (Z.ltb_spec (u + 1) (1 + na)); [|lia]. f_equal; lia.
      * right. cbn [label]. destruct (epath_region (edge b) (edge fa) (fun s => 0 <= s < nb) (1 + na)) with (s := 1 + na) (w := w') (t := s) (s' := 0)
          as (u & -> & Du & Pu); try lia; try assumption.
        { intros s1 l1 t1 D1 He. apply Ed in He as [(Es & _)|[(s2 & t2 & Es & -> & E2)|(s2 & t2 & Es & -> & E2)]]; [lia| |].
          - pose proof (edge_range a _ _ _ Wa E2) as [X _]. fold na in X. lia.
          - assert (s2 = s1) as -> by lia. exists t2. split; [reflexivity|]. split; [apply (edge_range b s1 l1 t2 Wb E2) | exact E2]. }
        exists u. split; [exact Pu|]. split; [|exact N]. unfold unite_tok.
        destruct (Z.eqb_spec (u + (1 + na)) 0); [lia|]. destruct (Z.ltb_spec (u + (1 + na)) (1 + na)); [lia|]. f_equal; lia.
      * exfalso. pose proof (edge_range a _ _ _ Wa E'). lia.
      * exfalso. pose proof (edge_range b _ _ _ Wb E') as X. lia.
  - intros [(s & P & T & N)|(s & P & T & N)].
    + destruct (tok_out a s Wa) as [Rs _]; [congruence|]. fold na in Rs. exists (s + 1). split; [|split; [|exact N]].
      * apply (epath_silent _ 0 (0 + 1)); [apply Ed; left; split; [reflexivity|]; split; [reflexivity | left; lia]|].
        apply (epath_embed (edge a)); [|exact P]. intros s1 l1 t1 E1. apply Ed. right; left; eauto.
      * apply (shape_token _ _ _ _ _ _ _ _ W H N). split; [lia|]. unfold unite_tok.
        destruct (Z.eqb_spec (s + 1) 0); [lia|]. destruct (Z.ltb_spec (s + 1) (1 + na)); [|lia]. rewrite <- T. f_equal; lia.
    + destruct (tok_out b s Wb) as [Rs _]; [congruence|]. fold nb in Rs. exists (s + (1 + na)). split; [|split; [|exact N]].
      * apply (epath_silent _ 0 (0 + (1 + na))); [apply Ed; left; split; [reflexivity|]; split; [reflexivity | right; lia]|].
        apply (epath_embed (edge b)); [|exact P]. intros s1 l1 t1 E1. apply Ed. right; right; eauto.
      * apply (shape_token _ _ _ _ _ _ _ _ W H N). split; [lia|]. unfold unite_tok.
        destruct (Z.eqb_spec (s + (1 + na)) 0); [lia|]. destruct (Z.ltb_spec (s + (1 + na)) (1 + na)); [lia|]. rewrite <- T. f_equal; lia.
Qed.
