From Verif Require Import Prelude M_Array M_Par P_Par M_Scan P_Scan M_Sort M_Map S_Map P_Map P_Map2 P_Fan P_Invert M_Template S_Template P_Template M_Align S_Align P_Align S_Unique P_Unique M_Adj S_Adj P_Adj P_Match M_Transit S_Transit P_Transit M_Mark S_Mark P_Mark M_Across S_Across P_Across M_Graph S_Graph P_Graph M_MeshAdj S_MeshAdj P_MeshAdj P_MeshAdj2.
Local Open Scope Z_scope.

(** ** a schedule that finishes exists *)
Lemma all_done_finished (c : mem Z * list (prog Z)) : all_done c -> finished c = true.
Proof. unfold all_done, finished. intros H. apply forallb_forall. intros p Hp. rewrite Forall_forall in H. rewrite (H p Hp). reflexivity. Qed.
Lemma invert_map_finishes a2b nb m0 : 0 <= nb -> (forall b, In b a2b -> 0 <= b < nb) -> exists s1 s2 r, invert_map_by_atomics a2b nb m0 s1 s2 = Ok (Some r).
Proof.
  intros Hn Hr. destruct (invert_map_by_atomics_spec a2b nb m0 [] [] Hn Hr) as (o0 & E0 & _). unfold invert_map_by_atomics in E0. apply bind_ok in E0 as (k1 & Ek1 & _).
  destruct (serial_complete_schedule Z (zeroed m0 0%nat nb) k1) as (s1 & D1 & _). apply all_done_finished in D1. exists s1.
  destruct (invert_map_by_atomics_spec a2b nb m0 s1 [] Hn Hr) as (o1 & E1 & _). unfold invert_map_by_atomics in *. rewrite Ek1 in *. cbn [bind] in *. rewrite D1 in *.
  apply bind_ok in E1 as (nba & En & E1). apply bind_ok in E1 as (k2 & Ek2 & _). rewrite En. cbn [bind]. rewrite Ek2. cbn [bind].
  match goal with |- context [run (?m, k2) _] => destruct (serial_complete_schedule Z m k2) as (s2 & D2 & _) end. apply all_done_finished in D2. exists s2. rewrite D2. eauto.
Qed.
Lemma invert_adj_finishes down nl nlows m0 : 0 < nl -> 0 <= nlows -> (forall l, In l (adj_ab2b down) -> 0 <= l < nlows) ->
  no_repeats (adj_ab2b down) nl -> (forall c, adj_codes down = Some c -> zlen c = zlen (adj_ab2b down)) -> exists s1 s2 up, invert_adj down nl nlows m0 s1 s2 = Ok (Some up).
Proof.
  intros H1 H2 H3 H4 H5. destruct (invert_map_finishes _ _ m0 H2 H3) as (s1 & s2 & r & E). exists s1, s2. destruct (invert_adj_spec down nl nlows m0 s1 s2 H1 H2 H3 H4 H5) as (o & Eo & _).
  unfold invert_adj in *. rewrite E in *. cbn [bind] in *. destruct r as [[f l] m]. apply bind_ok in Eo as (s & Es & Eo). rewrite Es. cbn [bind]. apply bind_ok in Eo as (s' & Es' & Eo). rewrite Es'. cbn [bind]. eauto.
Qed.
Lemma finite_choice {A} (d : A) (P : Z -> A -> Prop) n : (forall i, 0 <= i < Z.of_nat n -> exists a, P i a) -> exists F, forall i, 0 <= i < Z.of_nat n -> P i (F i).
Proof.
  induction n as [|n IH]; intros H; [exists (fun _ => d); lia|]. destruct IH as (F & HF); [intros i Hi; apply H; lia|]. destruct (H (Z.of_nat n) ltac:(lia)) as (a & Ha).
  exists (fun i => if i =? Z.of_nat n then a else F i). intros i Hi. destruct (Z.eqb_spec i (Z.of_nat n)) as [->|]; [exact Ha|apply HF; lia].
Qed.

Section topology.
Context (T : topology) (HT : valid_topology T).
Definition rank (from to : Z) : Z := if to <? from then from - to else if from <? to then 4 else 5.

(** [fin = true]: every inversion of [T]'s adjacencies finishes under [c] *)
Definition finishes (c : chance) : Prop := forall l h d, 0 <= l < h -> h <= t_dim T -> downv T h l = Ok d ->
  exists up, invert_adj d (element_degree (t_family T) h l) (t_nents T l) (c_mem c l h) (c_first c l h) (c_second c l h) = Ok (Some up).

Definition good (fin : bool) {A} (r : res (option A)) : Prop := exists o, r = Ok o /\ (fin = true -> exists a, o = Some a).
Lemma good_bindo {A B} fin (m : res (option A)) (f : A -> res (option B)) : good fin m -> (forall a, m = Ok (Some a) -> good fin (f a)) -> good fin (bindo m f).
Proof.
  intros (o & -> & Ho) Hf. unfold bindo. cbn [bind]. destruct o as [a|]; [apply Hf; reflexivity|]. exists None. split; [reflexivity|]. intros E. destruct (Ho E); discriminate.
Qed.
Lemma good_bind {A B} fin (m : res A) a (f : A -> res (option B)) : m = Ok a -> good fin (f a) -> good fin (bind m f).
Proof. intros -> H. exact H. Qed.
Lemma good_ok {A} fin (a : A) : good fin (Ok (Some a)).
Proof. exists (Some a). eauto. Qed.

Context (fin : bool) (c : chance) (Hfin : fin = true -> finishes c).
Definition ready (m : amesh) : Prop := Inv T m /\ complete T m.

Section derive.
Context (ask : amesh -> Z -> Z -> answer) (k : Z).
Context (Hask : forall m from to r, Inv T m -> ask m from to = Ok (Some r) -> Inv T (fst r) /\ val T from to = Ok (snd r)).
Context (Hkeep : forall m from to r, ask m from to = Ok (Some r) -> a_nents (fst r) = a_nents m).
Context (Hgood : forall m from to, ready m -> answerable T from to -> rank from to < k -> good fin (ask m from to)).
Lemma ask_ready m from to r : ready m -> ask m from to = Ok (Some r) -> ready (fst r) /\ val T from to = Ok (snd r).
Proof. intros [I C] E. destruct (Hask _ _ _ _ I E) as [I' V]. split; [|exact V]. split; [exact I'|]. intros d Hd. rewrite (Hkeep _ _ _ _ E). apply C, Hd. Qed.
Lemma both_ready sw m p q r : ready m -> ask_both ask sw m p q = Ok (Some r) -> ready (fst (fst r)) /\ val T (fst p) (snd p) = Ok (snd (fst r)) /\ val T (fst q) (snd q) = Ok (snd r).
Proof.
  intros I. unfold ask_both. destruct sw; intros H; apply bindo_some in H as (a & Ea & H); apply bindo_some in H as (b & Eb & H); injection H as <-; cbn [fst snd];
  destruct (ask_ready _ _ _ _ I Ea) as [I1 V1]; destruct (ask_ready _ _ _ _ I1 Eb) as [I2 V2]; auto.
Qed.
Lemma both_good sw m p q : ready m -> answerable T (fst p) (snd p) -> answerable T (fst q) (snd q) -> rank (fst p) (snd p) < k -> rank (fst q) (snd q) < k -> good fin (ask_both ask sw m p q).
Proof.
  intros I Ap Aq Rp Rq. unfold ask_both. destruct sw; (apply good_bindo; [apply Hgood; assumption|]; intros a Ea; apply good_bindo; [apply Hgood; [eapply ask_ready; eassumption|assumption|assumption]|]; intros b Eb; apply good_ok).
Qed.
Lemma answer_diff from to : 0 <= from <= t_dim T -> 0 <= to <= t_dim T -> from <> to -> answerable T from to.
Proof. intros H1 H2 H3. split; [exact H1|]. split; [exact H2|]. left. exact H3. Qed.
Lemma rank_down h l : l < h -> rank h l = h - l. Proof. intros H. unfold rank. destruct (Z.ltb_spec l h); lia. Qed.
Lemma rank_up h l : l < h -> rank l h = 4. Proof. intros H. unfold rank. destruct (Z.ltb_spec h l); [lia|]. destruct (Z.ltb_spec l h); lia. Qed.
Lemma rank_same d : rank d d = 5. Proof. unfold rank. rewrite Z.ltb_irrefl. reflexivity. Qed.

Lemma derive_good m from to : ready m -> answerable T from to -> to + 1 <> from -> rank from to <= k -> good fin (derive_adj ask c m from to).
Proof.
  intros R A HN Hk. pose proof R as [I C]. pose proof (v_dim T HT) as HD. pose proof (i_family T m I) as IF. pose proof (i_dim T m I) as ID. pose proof A as (Df & Dt & Hx).
  pose proof (C from Df) as Nf. pose proof (C to Dt) as Nt. pose proof (i_nents T m I from Df Nf) as IN.
  unfold derive_adj. rewrite check_dim_ok by lia. cbn [bind]. rewrite check_dim2_ok by lia. cbn [bind]. rewrite IF, ID, IN.
  destruct (Z.ltb_spec from to) as [L|L].
  - rewrite rank_up in Hk by lia. apply good_bindo; [apply Hgood; [exact R|apply answer_diff; lia|rewrite rank_down; lia]|]. intros a Ea. destruct (ask_ready _ _ _ _ R Ea) as [R1 V1]. rewrite val_down in V1 by lia.
    apply good_bindo; [|intros; apply good_ok]. destruct (up_facts T HT from to ltac:(lia) ltac:(lia)) as (d & up & E1 & _ & _ & _ & K). assert (d = snd a) as -> by congruence.
    destruct (K (c_mem c from to) (c_first c from to) (c_second c from to)) as (o & Eo & _). exists o. split; [exact Eo|]. intros F. destruct (Hfin F from to (snd a) ltac:(lia) ltac:(lia) V1) as (u & Eu). exists u. congruence.
  - destruct (Z.ltb_spec to from) as [L'|L'].
    + rewrite rank_down in Hk by lia. unfold check. destruct (Z.ltb_spec (to + 1) from); [|lia]. cbn [bind]. apply good_bindo; [apply Hgood; [exact R|apply answer_diff; lia|rewrite rank_down; lia]|]. intros a Ea. destruct (ask_ready _ _ _ _ R Ea) as [R1 V1].
      apply good_bindo; [apply Hgood; [exact R1|apply answer_diff; lia|rewrite rank_down; lia]|]. intros b Eb. destruct (ask_ready _ _ _ _ R1 Eb) as [R2 V2]. rewrite val_down in V1, V2 by lia.
      assert (exists t, transit (snd a) (snd b) (t_family T) from to = Ok t) as (t & Et); [|rewrite Et; cbn [bind]; apply good_ok].
      destruct (v_verts T HT from ltac:(lia)) as (W1 & W2 & _). destruct (Z.eq_dec to 0) as [->|].
      * change (0 + 1) with 1 in *. destruct (down_facts T HT from 1 ltac:(lia) ltac:(lia)) as (d & Ed & Md & _). assert (d = snd a) as <- by congruence. unfold means_down in Md. cbn [Z.eqb] in Md. destruct Md as (ab & codes & Edd & L1 & L2 & RR). rewrite Edd.
        assert (snd b = mk_adj [] (t_verts T 1) None) as ->. { unfold downv in V2. change (1 - 1) with 0 in V2. cbn [Z.eqb] in V2. pose proof (v_edges T HT). congruence. }
        eexists. apply (transit_verts_spec (t_family T) from (t_verts T from) (t_verts T 1) ab codes (t_nents T from) ltac:(lia) W1 W2 L1 RR).
      * assert (from = 3) as -> by lia. assert (to = 1) as -> by lia. change (1 + 1) with 2 in *. unfold downv in V1, V2. change (3 - 1) with 2 in V1. change (2 - 1) with 1 in V2. rewrite Z.eqb_refl in V1, V2. injection V1 as <-. injection V2 as <-.
        destruct (v_down T HT 3 ltac:(lia)) as (ab & codes & E1 & E2 & E3 & E4). destruct (v_down T HT 2 ltac:(lia)) as (ab' & codes' & E1' & E2' & E3' & E4'). rewrite E1, E1'.
        destruct (transit_edges_spec (t_family T) (t_verts T 3) (t_verts T 2) (t_verts T 1) ab codes ab' codes' (t_nents T 3) W1 W2 E2 E4 E4') as (he & hc & Et & _). eauto.
    + assert (to = from) as -> by lia. rewrite rank_same in Hk. destruct (across_facts T HT from A) as (v & Ev & _). unfold acrossv in Ev. destruct (Z.eqb_spec from (t_dim T)) as [->|Nd].
      * cbn [andb]. apply bind_ok in Ev as (e2s & Ee & Ev). apply bind_ok in Ev as (s2e & Es & Ev). apply bind_ok in Ev as (x & Ex & Ev). apply bind_ok in Ev as (g & Eg & Ev).
        apply good_bindo; [apply both_good; cbn [fst snd]; [exact R|apply answer_diff; lia|apply answer_diff; lia|rewrite rank_down; lia|rewrite rank_up; lia]|]. intros a Ea. destruct (both_ready _ _ _ _ _ R Ea) as (R1 & V1 & V2). cbn [fst snd] in V1, V2. rewrite val_down in V1 by lia. rewrite val_up in V2 by lia.
        apply good_bindo; [apply Hgood; [exact R1|apply answer_diff; lia|rewrite rank_up; lia]|]. intros b Eb. destruct (ask_ready _ _ _ _ R1 Eb) as [R2 V3]. rewrite val_up in V3 by lia.
        assert (snd b = s2e) as -> by congruence. rewrite Ex. cbn [bind]. assert (snd (fst a) = e2s) as -> by congruence. assert (snd a = s2e) as -> by congruence. rewrite Eg. cbn [bind]. apply good_ok.
      * cbn [andb]. destruct Hx as [Hx|(_ & _ & [Hx|Hx])]; [congruence|congruence|]. destruct (Z.eqb_spec from 0) as [->|].
        -- cbn [andb]. apply bind_ok in Ev as (e2s & Ee & Ev). apply bind_ok in Ev as (s2e & Es & Ev). apply bind_ok in Ev as (g & Eg & Ev).
           apply good_bindo; [apply both_good; cbn [fst snd]; [exact R|apply answer_diff; lia|apply answer_diff; lia|rewrite rank_down; lia|rewrite rank_up; lia]|]. intros a Ea. destruct (both_ready _ _ _ _ _ R Ea) as (R1 & V1 & V2). cbn [fst snd] in V1, V2. rewrite val_down in V1 by lia. rewrite val_up in V2 by lia.
           assert (snd (fst a) = e2s) as -> by congruence. assert (snd a = s2e) as -> by congruence. rewrite Eg. cbn [bind]. apply good_ok.
        -- assert (from = 1) as -> by lia. cbn [Z.eqb andb] in Ev |- *. apply bind_ok in Ev as ([] & Ec & Ev). rewrite Ec. cbn [bind]. apply bind_ok in Ev as (e2s & Ee & Ev). apply bind_ok in Ev as (s2e & Es & Ev). apply bind_ok in Ev as (g & Eg & Ev).
           apply good_bindo; [apply both_good; cbn [fst snd]; [exact R|apply answer_diff; lia|apply answer_diff; lia|rewrite rank_down; lia|rewrite rank_up; lia]|]. intros a Ea. destruct (both_ready _ _ _ _ _ R Ea) as (R1 & V1 & V2). cbn [fst snd] in V1, V2. rewrite val_down in V1 by lia. rewrite val_up in V2 by lia.
           assert (snd (fst a) = e2s) as -> by congruence. assert (snd a = s2e) as -> by congruence. rewrite Eg. cbn [bind]. destruct (Z.eqb_spec (t_dim T) 3) as [E3|]; [|apply good_ok].
           apply bind_ok in Ev as (r2e & Er & Ev). apply bind_ok in Ev as (e2r & Eu & Ev). apply bind_ok in Ev as (g' & Eg' & Ev). apply bind_ok in Ev as (g'' & Eg'' & Ev).
           apply good_bindo; [apply both_good; cbn [fst snd]; [exact R1|apply answer_diff; lia|apply answer_diff; lia|rewrite rank_down; lia|rewrite rank_up; lia]|]. intros b Eb. destruct (both_ready _ _ _ _ _ R1 Eb) as (R2 & V3 & V4). cbn [fst snd] in V3, V4. rewrite val_down in V3 by lia. rewrite val_up in V4 by lia.
           assert (snd (fst b) = r2e) as -> by congruence. assert (snd b = e2r) as -> by congruence. rewrite Eg'. cbn [bind]. rewrite Eg''. cbn [bind]. apply good_ok.
Qed.
End derive.

Lemma ask_good : forall fuel m from to, ready m -> answerable T from to -> rank from to < Z.of_nat fuel -> good fin (ask_within fuel c m from to).
Proof.
  induction fuel as [|fuel IH]; intros m from to R A Hk.
  - unfold rank in Hk. destruct (Z.ltb_spec to from); [lia|]. destruct (from <? to); lia.
  - cbn [ask_within]. pose proof R as [I C]. pose proof A as (D1 & D2 & _). pose proof (i_dim T m I) as ID. rewrite check_dim2_ok by (try lia; apply C; assumption). cbn [bind]. rewrite check_dim2_ok by (try lia; apply C; assumption). cbn [bind].
    destruct (a_adjs m from to) as [a|] eqn:E; [apply good_ok|]. apply good_bindo; [|intros; apply good_ok].
    apply (derive_good _ (Z.of_nat fuel)); try assumption.
    + intros m1 f1 t1 r1. apply (ask_inv T HT c).
    + intros m1 f1 t1 r1 H1. apply ask_keeps in H1. apply H1.
    + intros Et. pose proof (i_down T m I from ltac:(lia) (C from D1)) as Ed. replace (from - 1) with to in Ed by lia. congruence.
    + lia.
Qed.
End topology.

Lemma finishing_chance T mem : valid_topology T -> exists first second, finishes T (mk_chance mem first second (fun _ _ => false)).
Proof.
  intros HT. pose proof (v_dim T HT) as HD.
  destruct (finite_choice (fun _ => ([], [])) (fun l F => forall h d, 0 <= h < 4 -> l < h <= t_dim T -> downv T h l = Ok d ->
     exists up, invert_adj d (element_degree (t_family T) h l) (t_nents T l) (mem l h) (fst (F h)) (snd (F h)) = Ok (Some up)) 4) as (F & HF).
  - intros l Hl. destruct (finite_choice ([], []) (fun h p => l < h <= t_dim T -> forall d, downv T h l = Ok d ->
       exists up, invert_adj d (element_degree (t_family T) h l) (t_nents T l) (mem l h) (fst p) (snd p) = Ok (Some up)) 4) as (F & HF).
    + intros h Hh. destruct (Z_lt_dec l h) as [L|]; [|exists ([], []); lia]. destruct (Z_le_dec h (t_dim T)) as [L'|]; [|exists ([], []); lia].
      destruct (down_facts T HT h l ltac:(lia) L') as (d & Ed & _ & _ & _ & Rd & Nd & Cd).
      destruct (invert_adj_finishes d (element_degree (t_family T) h l) (t_nents T l) (mem l h)) as (s1 & s2 & up & E); auto; [apply degree_pos; lia|apply (v_nents T HT); lia|].
      exists (s1, s2). intros _ d' Ed'. assert (d' = d) as -> by congruence. exists up. exact E.
    + exists F. intros h d Hh Hlh Ed. apply (HF h Hh Hlh d Ed).
  - exists (fun l h => fst (F l h)), (fun l h => snd (F l h)). intros l h d Hl Hh Ed. cbn [c_mem c_first c_second]. apply (HF l ltac:(lia) h d); auto; lia.
Qed.

Section theorems.
Context (T : topology) (HT : valid_topology T).
Definition start := new_mesh (t_family T) (t_dim T) (t_nents T 0).
Lemma asked_right m0 es m from to c r : start = Ok m0 -> builds T es -> run_aevents m0 es = Ok (Some m) -> answerable T from to -> ask_adj c m from to = Ok (Some r) -> means T from to (snd r).
Proof.
  intros H0 HB HR HA E. apply start_inv in H0; [|exact HT]. pose proof (run_inv T HT es m0 m H0 HB HR) as I. destruct (ask_inv T HT c _ _ _ _ _ I E) as [_ V].
  destruct (val_means T HT from to HA) as (a & Ea & M). rewrite V in Ea. injection Ea as <-. exact M.
Qed.
Lemma asked_same m0 es es' m m' from to c c' r r' : start = Ok m0 -> builds T es -> builds T es' -> run_aevents m0 es = Ok (Some m) -> run_aevents m0 es' = Ok (Some m') ->
  ask_adj c m from to = Ok (Some r) -> ask_adj c' m' from to = Ok (Some r') -> snd r = snd r'.
Proof.
  intros H0 HB HB' HR HR' E E'. apply start_inv in H0; [|exact HT]. pose proof (run_inv T HT es m0 m H0 HB HR) as I. pose proof (run_inv T HT es' m0 m' H0 HB' HR') as I'.
  destruct (ask_inv T HT c _ _ _ _ _ I E) as [_ V]. destruct (ask_inv T HT c' _ _ _ _ _ I' E') as [_ V']. congruence.
Qed.
Lemma asked_total m0 es m from to c : start = Ok m0 -> builds T es -> run_aevents m0 es = Ok (Some m) -> complete T m -> answerable T from to ->
  exists o, ask_adj c m from to = Ok o.
Proof.
  intros H0 HB HR HC HA. apply start_inv in H0; [|exact HT]. pose proof (run_inv T HT es m0 m H0 HB HR) as I.
  destruct (ask_good T HT false c ltac:(discriminate) 6 m from to (conj I HC) HA) as (o & E & _); [|eauto]. unfold rank. destruct HA as (D1 & D2 & _). pose proof (v_dim T HT). destruct (Z.ltb_spec to from); [lia|]. destruct (from <? to); lia.
Qed.
Lemma asked_finishes m0 es m : start = Ok m0 -> builds T es -> run_aevents m0 es = Ok (Some m) -> complete T m -> forall mem, exists first second,
  forall from to, answerable T from to -> exists r, ask_adj (mk_chance mem first second (fun _ _ => false)) m from to = Ok (Some r).
Proof.
  intros H0 HB HR HC mem. apply start_inv in H0; [|exact HT]. pose proof (run_inv T HT es m0 m H0 HB HR) as I. destruct (finishing_chance T mem HT) as (first & second & HF). exists first, second. intros from to HA.
  destruct (ask_good T HT true _ (fun _ => HF) 6 m from to (conj I HC) HA) as (o & E & HO); [|destruct (HO eq_refl) as (a & ->); eauto]. unfold rank. destruct HA as (D1 & D2 & _). pose proof (v_dim T HT). destruct (Z.ltb_spec to from); [lia|]. destruct (from <? to); lia.
Qed.
End theorems.
