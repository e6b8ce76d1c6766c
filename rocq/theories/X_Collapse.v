(** Example data for C79: a strip of four triangles, two of its vertices collapsed. *)
From Coq Require Import String Permutation Sorted.
From Verif Require Import Prelude M_Array P_Array M_Par M_Map M_Template M_Align S_Align P_Align M_Unique S_Unique M_Adj S_Adj
  M_Tags M_MeshAdj S_MeshAdj P_MeshAdj P_MeshAdj2 P_MeshAdj3 M_Build S_Build M_Modify S_Modify S_Swap3d M_RefineMesh S_RefineMesh P_RefineMesh1 P_RefineMesh2 P_RefineMesh4 S_Patch M_Collapse S_Collapse P_Collapse1 P_Map X_MeshAdj X_RefineMesh X_Flip.
Local Open Scope Z_scope.

(** global numbers of the nine edges; vertices 1 and 3 go along the edges 0-1 and 3-4 *)
Definition strip_globals : list Z := [107; 103; 101; 108; 100; 106; 105; 104; 102].
Definition gone : list Z := [3; 1].
Definition strip_rails : list Z := [-1; 107; -1; 104; -1; -1].
Definition collapse_strip : res (option (amesh * amesh * (numbering * list (numbering * adj)))) := o <- strip_adj ;; match o with Some m => coarsen_element_based long_turns long_turns m strip_globals gone strip_rails | None => Ok None end.
Definition collapsed_ids (d : Z) : res (list Z) := o <- collapse_strip ;; match o with
  | Some (_, _, (r0, per)) => if d =? 0 then no_products 1 (strip_ids 0) r0 else i <- zget per (d - 1) ;; inherit_coarsen 1 (strip_ids d) (snd i) (fst i)
  | None => UB end.

Local Notation goes := (goes strip strip_globals gone strip_rails).
Local Notation becomes := (becomes strip strip_globals gone strip_rails).
Local Notation shrinks := (shrinks strip strip_globals gone strip_rails).
Local Notation falls := (falls strip strip_globals gone strip_rails).
Definition pairs : list (Z * Z) := [(1, 0); (3, 4)].
Lemma strip_goes v w : goes v w <-> In (v, w) pairs.
Proof.
  split.
  - intros (I & g & k & row & Eg & Ek & R & P). pose proof (zget_bounds _ _ _ Ek) as Bk. change (zlen strip_globals) with 9 in Bk. destruct (strip_row 1 k row ltac:(lia) R) as [Er _].
    assert (k = 0 \/ k = 1 \/ k = 2 \/ k = 3 \/ k = 4 \/ k = 5 \/ k = 6 \/ k = 7 \/ k = 8) as Hk by lia. destruct I as [<-|[<-|[]]]; vm_compute in Eg; injection Eg as <-; destruct Hk as [->|[->|[->|[->|[->|[->|[->|[->| ->]]]]]]]]; vm_compute in Ek; try discriminate; vm_compute in Er; injection Er as <-; apply Permutation_sym, Permutation_length_2_inv in P as [P|P]; inversion P; subst; cbn; auto.
  - intros [E|[E|[]]]; injection E as <- <-; (split; [cbn; auto|]).
    + exists 107, 0, [0; 1]. split; [reflexivity|]. split; [reflexivity|]. split; [apply row_strip; [lia|reflexivity]|apply perm_swap].
    + exists 104, 7, [4; 3]. split; [reflexivity|]. split; [reflexivity|]. split; [apply row_strip; [lia|reflexivity]|apply perm_swap].
Qed.
Definition strip_to (v : Z) : Z := if v =? 1 then 0 else if v =? 3 then 4 else v.
Lemma strip_becomes v w : becomes v w -> w = strip_to v.
Proof. intros [G|[N ->]]; [apply strip_goes in G as [E|[E|[]]]; injection E as <- <-; reflexivity|]. unfold strip_to. destruct (Z.eqb_spec v 1) as [->|]; [exfalso; apply N; cbn; auto|]. destruct (Z.eqb_spec v 3) as [->|]; [exfalso; apply N; cbn; auto|reflexivity]. Qed.
Lemma becomes_strip v : becomes v (strip_to v).
Proof. unfold strip_to. destruct (Z.eqb_spec v 1) as [->|]; [left; apply strip_goes; cbn; auto|]. destruct (Z.eqb_spec v 3) as [->|]; [left; apply strip_goes; cbn; auto|]. right. split; [cbn; lia|reflexivity]. Qed.
Lemma strip_becomes_row row to : Forall2 becomes row to -> to = map strip_to row.
Proof. induction 1 as [|v w l m B _ IH]; [reflexivity|]. cbn. f_equal; [apply strip_becomes, B|exact IH]. Qed.
Lemma becomes_strip_row row : Forall2 becomes row (map strip_to row).
Proof. induction row; constructor; [apply becomes_strip|assumption]. Qed.
Definition has (v : Z) (row : list Z) : bool := covers_row [v] row.
Lemma has_in v row : has v row = true <-> In v row.
Proof. unfold has. rewrite covers_incl. split; [intros H; apply H; left; reflexivity|intros I x [<-|[]]; exact I]. Qed.
Definition shrinksb (row : list Z) : bool := existsb (fun p => has (fst p) row && has (snd p) row) pairs.
Lemma strip_shrinks row : shrinks row <-> shrinksb row = true.
Proof.
  unfold shrinksb. rewrite existsb_exists. split.
  - intros (v & w & G & A & B). exists (v, w). split; [apply strip_goes, G|]. cbn [fst snd]. apply andb_true_intro. split; apply has_in; assumption.
  - intros ((v & w) & G & H). cbn [fst snd] in H. apply andb_prop in H as [A B]. exists v, w. split; [apply strip_goes, G|]. split; apply has_in; assumption.
Qed.
Definition fallsb (d : Z) (row : list Z) : bool := existsb (fun p => has (fst p) row && (has (snd p) row || (d <? 2) && existsb (fun e => match verts_of 3 (strip_verts 2) e with Ok tri => covers_row row tri && has (snd p) tri | _ => false end) (zrange 4))) pairs.
Lemma strip_falls d row : 1 <= d <= 2 -> fallsb d row = true -> falls d row.
Proof.
  intros Hd H. apply existsb_exists in H as ((v & w) & G & H). cbn [fst snd] in H. apply andb_prop in H as [A B]. exists v, w. split; [apply strip_goes, G|]. split; [apply has_in, A|]. apply orb_prop in B as [B|B]; [left; apply has_in, B|right]. apply andb_prop in B as [C B]. apply Z.ltb_lt in C. split; [exact C|]. assert (d = 1) as -> by lia. apply existsb_exists in B as (e & _ & B). destruct (verts_of 3 (strip_verts 2) e) as [tri| |] eqn:E; try discriminate. apply andb_prop in B as [B1 B2]. exists e, tri. split; [apply row_strip; [lia|exact E]|]. split; [apply covers_incl, B1|apply has_in, B2].
Qed.
Lemma strip_collapsible : collapsible strip strip_globals gone strip_rails.
Proof.
  constructor.
  - repeat constructor; cbn; intuition lia.
  - split; [reflexivity|]. repeat constructor; cbn; intuition lia.
  - intros v [<-|[<-|[]]]; [exists 4|exists 0]; apply strip_goes; cbn; auto.
  - intros k a b R Ia Ib. destruct (strip_row 1 k _ ltac:(lia) R) as [E _]. assert (forallb (fun row => negb (forallb (fun v => (v =? 1) || (v =? 3)) row)) (strip_rows 1) = true) as H by (vm_compute; reflexivity). rewrite forallb_forall in H. specialize (H _ (zget_In _ _ _ E)). cbn in H. destruct Ia as [<-|[<-|[]]], Ib as [<-|[<-|[]]]; discriminate.
  - change (t_dim strip) with 2. intros d e e' row row' to to' Hd R R' NF NF' B B' P. apply strip_becomes_row in B, B'. subst to to'. destruct (strip_row d e row Hd R) as [E He]. destruct (strip_row d e' row' Hd R') as [E' He'].
    assert (forallb (fun d => forallb (fun e => forallb (fun e' => match zget (strip_rows d) e, zget (strip_rows d) e' with Ok row, Ok row' => orb (orb (e =? e') (orb (fallsb d row) (fallsb d row'))) (negb (covers_row (map strip_to row) (map strip_to row'))) | _, _ => false end) (zrange (t_nents strip d))) (zrange (t_nents strip d))) (zfromto 1 3) = true) as H by (vm_compute; reflexivity).
    rewrite forallb_forall in H. specialize (H d ltac:(apply in_zfromto; lia)). rewrite forallb_forall in H. specialize (H e ltac:(apply in_zrange; exact He)). rewrite forallb_forall in H. specialize (H e' ltac:(apply in_zrange; exact He')). rewrite E, E' in H. apply orb_prop in H as [H|H].
    + apply orb_prop in H as [H|H]; [apply Z.eqb_eq, H|]. exfalso. apply orb_prop in H as [H|H]; apply (strip_falls d _ Hd) in H; contradiction.
    + exfalso. apply negb_true_iff in H. assert (covers_row (map strip_to row) (map strip_to row') = true) as C by (apply covers_incl; intros x; apply Permutation_in, P). congruence.
  - change (t_dim strip) with 2. intros d e row to Hd R NS B. apply strip_becomes_row in B. subst to. assert (d = 1) as -> by lia. destruct (strip_row 1 e row ltac:(lia) R) as [E He].
    assert (forallb (fun row => shrinksb row || existsb (fun e' => match verts_of 3 (strip_verts 2) e' with Ok tri => negb (shrinksb tri) && covers_row (map strip_to row) (map strip_to tri) | _ => false end) (zrange 4)) (strip_rows 1) = true) as H by (vm_compute; reflexivity).
    rewrite forallb_forall in H. specialize (H row (zget_In _ _ _ E)). apply orb_prop in H as [H|H]; [exfalso; apply NS, strip_shrinks, H|]. apply existsb_exists in H as (e' & _ & H). destruct (verts_of 3 (strip_verts 2) e') as [tri| |] eqn:V; try discriminate. apply andb_prop in H as [H1 H2]. exists e', tri, (map strip_to tri). split; [apply row_strip; [lia|exact V]|]. split; [intros S; apply strip_shrinks in S; rewrite S in H1; discriminate|]. split; [apply becomes_strip_row|apply covers_incl, H2].
Qed.
