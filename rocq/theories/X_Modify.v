(** Example: a square cut into two triangles. *)
From Verif Require Import Prelude M_Array M_Scan M_Align M_Graph M_Adj M_Modify S_Map S_Graph S_Adj S_Modify P_Modify2.
Local Open Scope Z_scope.

Definition square_nents (d : Z) : Z := if d =? 0 then 4 else if d =? 1 then 5 else 2.
Definition square_down (b a : Z) : list Z :=
  if (b =? 1) && (a =? 0) then [0; 1; 1; 2; 0; 2; 2; 3; 0; 3]
  else if (b =? 2) && (a =? 0) then [0; 1; 2; 0; 2; 3]
  else [0; 1; 2; 2; 3; 4].
Definition square_degree (b _ : Z) : Z := b + 1.
Definition square_up (a b : Z) : adj :=
  if (b =? 1) && (a =? 0) then mk_adj [0; 3; 5; 8; 10] [0; 2; 4; 0; 1; 1; 2; 3; 3; 4] (Some (map (make_code false 0) [0; 0; 0; 1; 0; 1; 1; 0; 1; 1]))
  else if (b =? 2) && (a =? 0) then mk_adj [0; 2; 3; 5; 6] [0; 1; 0; 0; 1; 1] (Some (map (make_code false 0) [0; 0; 1; 2; 1; 2]))
  else mk_adj [0; 1; 2; 4; 5; 6] [0; 0; 0; 1; 1; 1] (Some (map (make_code false 0) [0; 1; 2; 0; 1; 2])).
Definition square_owned (d : Z) : list Z := repeat 1 (Z.to_nat (square_nents d)).
Definition square : mesh_view := mk_mesh 2 square_nents square_up square_down (fun b a => if b =? 1 then 2 else 3) square_owned.

Definition checked_uses (down : list Z) (deg : Z) (up : adj) (l : Z) : bool :=
  match adj_targets up l, adj_target_codes up l with
  | Ok ts, Ok cs => if list_eq_dec Z.eq_dec ts (map (fun hl => hl / deg) (uses_of down l)) then if list_eq_dec Z.eq_dec (map code_which_down cs) (map (fun hl => hl mod deg) (uses_of down l)) then true else false else false
  | _, _ => false
  end.
Lemma checked_lists down deg nlow up : wf_adj up -> zlen (adj_a2ab up) = nlow + 1 -> forallb (checked_uses down deg up) (zrange nlow) = true -> lists_uses down deg nlow up.
Proof.
  intros W L H. split; [exact W|]. split; [exact L|]. intros l Hl. rewrite forallb_forall in H. specialize (H l). rewrite in_zrange in H. specialize (H Hl). unfold checked_uses in H.
  destruct (adj_targets up l) as [ts| |]; try discriminate. destruct (adj_target_codes up l) as [cs| |]; try discriminate. destruct (list_eq_dec _ ts _) as [->|]; [|discriminate]. destruct (list_eq_dec _ (map code_which_down cs) _) as [E|]; [|discriminate]. split; [reflexivity|]. exists cs. split; [reflexivity|exact E].
Qed.
Definition nondec (f : list Z) : bool := forallb (fun i => match zget f i, zget f (i + 1) with Ok a, Ok b => a <=? b | _, _ => false end) (zrange (zlen f - 1)).
Lemma nondec_ok f : nondec f = true -> forall i lo hi, zget f i = Ok lo -> zget f (i + 1) = Ok hi -> lo <= hi.
Proof.
  intros H i lo hi E1 E2. unfold nondec in H. rewrite forallb_forall in H. specialize (H i). rewrite in_zrange in H. apply zget_bounds in E1 as B1. apply zget_bounds in E2 as B2. specialize (H ltac:(lia)). rewrite E1, E2 in H. lia.
Qed.
Definition within (l : list Z) (n : Z) : bool := forallb (fun x => (0 <=? x) && (x <? n)) l.
Lemma within_ok l n : within l n = true -> forall i x, zget l i = Ok x -> 0 <= x < n.
Proof. intros H i x E. unfold within in H. rewrite forallb_forall in H. specialize (H x (zget_In _ _ _ E)). lia. Qed.

Lemma square_consistent : consistent square.
Proof.
  split; [cbn; lia|]. split.
  - intros d Hd. cbn [mesh_dim square] in Hd. cbn [nents square owned]. assert (d = 0 \/ d = 1 \/ d = 2) as [->|[->| ->]] by lia; (split; [vm_compute; discriminate|reflexivity]).
  - intros a b Ha Hab Hb. cbn [mesh_dim square] in Hb. assert ((a = 0 /\ b = 1) \/ (a = 0 /\ b = 2) \/ (a = 1 /\ b = 2)) as [(-> & ->)|[(-> & ->)|(-> & ->)]] by lia;
    (split; [reflexivity|]; split; [reflexivity|]; split; [apply within_ok; vm_compute; reflexivity|]; apply checked_lists; [split; [split; [reflexivity|apply nondec_ok; vm_compute; reflexivity]|split; [reflexivity|intros c E; injection E as <-; reflexivity]]|reflexivity|vm_compute; reflexivity]).
Qed.

Lemma fan_3 : is_fan [0; 4]. Proof. split; [reflexivity|apply nondec_ok; vm_compute; reflexivity]. Qed.

(** splitting the diagonal (edge 2) *)
Lemma diagonal_independent : independent square 1 [2] 2.
Proof. intros x s s' k k' _ _ _ _ [<-|[]] [<-|[]]. reflexivity. Qed.

(** one new vertex per edge and one per triangle, nothing is removed *)
Definition all_mds : few := [None; Some [0; 1; 2; 3; 4]; Some [0; 1]; None].
Definition all_prods : few := [None; Some [0; 1; 2; 3; 4; 5]; Some [5; 6; 7]; None].
Lemma all_lists : modified_lists square all_mds all_prods 7.
Proof.
  split; [reflexivity|]. split; [reflexivity|]. split.
  - cbn. split; [reflexivity|]. split; [apply nondec_ok; vm_compute; reflexivity|]. exists 5. split; [reflexivity|]. split; [reflexivity|]. split; [apply nondec_ok; vm_compute; reflexivity|]. exists 7. split; reflexivity.
  - intros d p E. pose proof E as B. unfold at_ in B. destruct (zget all_prods d) eqn:Eg; try discriminate. apply zget_bounds in Eg. change (zlen all_prods) with 4 in Eg. assert (d = 0 \/ d = 1 \/ d = 2 \/ d = 3) as [->|[->|[->| ->]]] by lia; cbn in E; try discriminate; injection E as <-.
    + split; [cbn; lia|]. exists [0; 1; 2; 3; 4]. split; [reflexivity|]. split; [reflexivity|]. split; [repeat constructor; cbn; lia|]. intros md Hmd. change (nents square 1) with 5. cbn in Hmd. lia.
    + split; [cbn; lia|]. exists [0; 1]. split; [reflexivity|]. split; [reflexivity|]. split; [repeat constructor; cbn; lia|]. intros md Hmd. change (nents square 2) with 2. cbn in Hmd. lia.
Qed.
Lemma all_above d prods : at_ all_prods d = Some prods -> 0 <= d.
Proof. unfold at_. destruct (zget all_prods d) eqn:E; [|discriminate|discriminate]. intros _. apply zget_bounds in E. lia. Qed.

(** replacing two sides of one triangle at once *)
Lemma shared_clash : consistent square /\ NoDup [0; 1] /\ (forall k, In k [0; 1] -> 0 <= k < nents square 1) /\ is_fan [0; 2; 4] /\
  exists r, modify_ents_adapt square 2 1 [0; 1] [0; 2; 4] = Ok r /\ ~ NoDup (prods2new r).
Proof.
  split; [apply square_consistent|]. split; [repeat constructor; cbn; lia|]. split; [intros k Hk; change (nents square 1) with 5; cbn in Hk; lia|]. split; [split; [reflexivity|apply nondec_ok; vm_compute; reflexivity]|].
  eexists. split; [vm_compute; reflexivity|]. cbn [prods2new]. intros H. inversion H as [|? ? H1 _]; subst. apply H1. cbn. tauto.
Qed.
