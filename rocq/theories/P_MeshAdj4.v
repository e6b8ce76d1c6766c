(** Graphs between the entities of a mesh. *)
From Verif Require Import Prelude M_Array M_Par M_Template M_Align M_Adj S_Adj S_Transit S_Across M_MeshAdj S_MeshAdj P_MeshAdj P_MeshAdj2 P_MeshAdj3 P_Unique S_Map M_Graph S_Graph P_Graph.
Local Open Scope Z_scope.

Lemma regular_get n m i : 0 <= i <= n -> zget (map (fun i => i * m) (zrange (n + 1))) i = Ok (i * m).
Proof. intros H. rewrite zget_map, zget_zrange by lia. reflexivity. Qed.

Lemma graph_right T (HT : valid_topology T) m0 es m from to c r :
  new_mesh (t_family T) (t_dim T) (t_nents T 0) = Ok m0 -> builds T es -> run_aevents m0 es = Ok (Some m) ->
  0 <= from <= t_dim T -> 0 <= to <= t_dim T -> ask_graph c m from to = Ok (Some r) -> means_graph T from to (snd r).
Proof.
  intros H0 HB HR Rf Rt E. pose proof (run_inv T HT es m0 m (start_inv T HT m0 H0) HB HR) as I. unfold ask_graph in E. unfold means_graph.
  assert (0 <= t_nents T from) as Nf by (apply (v_nents T HT); exact Rf).
  destruct (Z.ltb_spec from to) as [L|L].
  - destruct (Z.ltb_spec to from); [lia|]. unfold ask_up in E. destruct (Z.ltb_spec from to); [|lia]. cbn [check bind] in E.
    destruct (ask_adj c m from to) as [[[m1 a]| ]| |] eqn:A; try discriminate. cbn [bindo bind fst snd] in E. injection E as <-. cbn [snd].
    pose proof (asked_right T HT m0 es m from to c _ H0 HB HR (answer_diff T from to Rf Rt ltac:(lia)) A) as M. cbn [snd] in M.
    unfold means in M. destruct (Z.ltb_spec to from); [lia|]. destruct (Z.ltb_spec from to); [|lia].
    destruct M as (d & Md & (W1 & W2 & W3) & Z1 & _ & U). split; [|split].
    + split; [exact W1|]. unfold last_of. exact W2.
    + unfold nnodes, to_graph. cbn [a2ab]. lia.
    + intros e Re. exists d. split; [exact Md|]. apply U. exact Re.
  - destruct (Z.ltb_spec to from) as [L2|L2].
    + unfold ask_down in E. destruct (Z.ltb_spec to from); [|lia]. cbn [check bind] in E.
      destruct (ask_adj c m from to) as [[[m1 a]| ]| |] eqn:A; try discriminate. cbn [bindo bind fst snd] in E.
      destruct (check_dim2 m1 from) as [[]| |] eqn:Ck; try discriminate. cbn [bind] in E. injection E as <-. cbn [snd].
      pose proof (asked_right T HT m0 es m from to c _ H0 HB HR (answer_diff T from to Rf Rt ltac:(lia)) A) as M. cbn [snd] in M.
      unfold means in M. destruct (Z.ltb_spec to from); [|lia].
      destruct (ask_keeps _ _ _ _ _ _ A) as (_ & Kn & _). cbn [fst] in Kn. apply check_dim2_inv in Ck as [_ Ck]. rewrite Kn in Ck.
      destruct I as [I1 I2 I3 I4 I5 I6]. rewrite (I4 from Rf Ck), I1 in *.
      set (n := t_nents T from) in *. set (k := element_degree (t_family T) from to).
      assert (0 < k) as Hk by (apply degree_pos; pose proof (v_dim T HT); lia).
      assert (zlen (adj_ab2b a) = n * k) as La.
      { unfold means_down in M. destruct (Z.eqb_spec to 0) as [->|].
        - subst a. cbn [adj_ab2b]. apply (v_verts T HT). lia.
        - destruct M as (ab & codes & -> & Z1 & _). exact Z1. }
      assert (zlen (map (fun i => i * k) (zrange (n + 1))) = n + 1) as Lo by (rewrite zlen_map, zlen_zrange; lia).
      split; [|split].
      * split.
        -- cbn [a2ab]. split; [rewrite regular_get by lia; reflexivity|]. intros i lo hi G1 G2.
           pose proof (zget_bounds _ _ _ G1) as B1. pose proof (zget_bounds _ _ _ G2) as B2. rewrite Lo in B1, B2.
           rewrite regular_get in G1, G2 by lia. injection G1 as <-. injection G2 as <-. nia.
        -- unfold last_of. cbn [a2ab ab2b]. rewrite Lo. replace (n + 1 - 1) with n by lia. rewrite regular_get by lia. rewrite La. reflexivity.
      * unfold nnodes. cbn [a2ab]. lia.
      * intros e Re. exists a. split; [exact M|]. unfold targets. cbn [a2ab ab2b]. rewrite !regular_get by lia. reflexivity.
    + assert (from = to) as <- by lia. destruct (check_dim2 m from) as [[]| |] eqn:Ck; try discriminate. cbn [bind] in E.
      apply check_dim2_inv in Ck as [_ Ck]. destruct I as [I1 I2 I3 I4 I5 I6]. rewrite (I4 from Rf Ck) in E.
      destruct (identity_spec (t_nents T from) Nf) as (g & Eg & Wg & Ng & Tg). rewrite Eg in E. cbn [bind] in E. injection E as <-.
      cbn [snd]. split; [exact Wg|]. split; [exact Ng | exact Tg].
Qed.

Lemma graph_total T (HT : valid_topology T) m0 es m from to c :
  new_mesh (t_family T) (t_dim T) (t_nents T 0) = Ok m0 -> builds T es -> run_aevents m0 es = Ok (Some m) -> complete T m ->
  0 <= from <= t_dim T -> 0 <= to <= t_dim T -> exists o, ask_graph c m from to = Ok o.
Proof.
  intros H0 HB HR HC Rf Rt. pose proof (run_inv T HT es m0 m (start_inv T HT m0 H0) HB HR) as I. unfold ask_graph.
  destruct (Z.ltb_spec from to) as [L|L].
  - unfold ask_up. destruct (Z.ltb_spec from to); [|lia]. cbn [check bind].
    destruct (asked_total T HT m0 es m from to c H0 HB HR HC (answer_diff T from to Rf Rt ltac:(lia))) as [[r|] ->]; cbn [bindo bind]; eauto.
  - destruct (Z.ltb_spec to from) as [L2|L2].
    + unfold ask_down. destruct (Z.ltb_spec to from); [|lia]. cbn [check bind].
      destruct (asked_total T HT m0 es m from to c H0 HB HR HC (answer_diff T from to Rf Rt ltac:(lia))) as [[[m1 a]|] A]; rewrite A; cbn [bindo bind fst snd]; [|eauto].
      destruct (ask_keeps _ _ _ _ _ _ A) as (Kp & Kn & _). cbn [fst] in Kn, Kp.
      rewrite check_dim2_ok; [cbn [bind]; eauto | | rewrite Kn; apply HC; exact Rf].
      destruct (ask_inv T HT c _ _ _ _ _ I A) as [I2 _]. cbn [fst] in I2. rewrite (i_dim T _ I2). exact Rf.
    + rewrite check_dim2_ok; [cbn [bind] | rewrite (i_dim T _ I); exact Rf | apply HC; exact Rf].
      destruct (identity_spec (a_nents m from) (HC from Rf)) as (g & -> & _). cbn [bind]. eauto.
Qed.
