(** Example data for C81: a strip of four triangles, with a classification. *)
From Coq Require Import String.
From Verif Require Import Prelude M_Par M_Adj M_MeshAdj S_MeshAdj X_MeshAdj S_RefineMesh S_Unique M_Choose S_Choose X_RefineMesh X_Flip X_Collapse.
Local Open Scope Z_scope.

(** the corners are 0, 2, 3 and 5; the edge between 1 and 4 is on a line that parts the strip *)
Definition strip_class (d : Z) : list Z := if d =? 0 then [0; 1; 0; 0; 1; 0] else if d =? 1 then [1; 1; 2; 1; 1; 2; 1; 1; 1] else [2; 2; 2; 2].
Definition strip_lengths : list Z := [1; 2; 3; 4; 5; 5; 2; 4; 1].
Definition strip_qual (k i : Z) : Z := 10 * k + i.
Definition all_marked : list Z := [1; 1; 1; 1; 1; 1].
Definition no_check (k i : Z) : bool := true.
Definition not_seven (k i : Z) : bool := negb (k =? 7).
Definition choose_strip (checks : list (Z -> Z -> bool)) (marks : list Z) : res (option (option (list Z * list (option Z) * list Z))) :=
  o <- strip_adj ;; match o with Some m => r <- choose_collapses Z.ltb Z.eqb Z.gtb long_turns m strip_class strip_globals strip_lengths strip_qual checks marks ;; Ok (match r with Some p => Some (snd p) | None => None end) | None => Ok None end.
Lemma numbers_compare : compares Z.ltb Z.eqb Z.gtb.
Proof.
  constructor; intros *; rewrite ?Z.gtb_ltb.
  - apply Z.ltb_irrefl.
  - rewrite !Z.ltb_lt. lia.
  - rewrite !Z.ltb_ge, Z.eqb_eq. lia.
  - rewrite !Z.eqb_eq. lia.
  - apply Z.ltb_irrefl.
  - rewrite !Z.ltb_lt. lia.
Qed.
Lemma strip_choice_ready : (forall d, 0 <= d <= t_dim strip -> zlen (strip_class d) = t_nents strip d) /\ zlen all_marked = t_nents strip 0 /\ zlen strip_globals = t_nents strip 1 /\ (forall x, In x strip_globals -> 0 <= x) /\ zlen strip_lengths = t_nents strip 1.
Proof.
  split; [change (t_dim strip) with 2; intros d Hd; assert (d = 0 \/ d = 1 \/ d = 2) as [->|[->| ->]] by lia; reflexivity|]. split; [reflexivity|]. split; [reflexivity|]. split; [|reflexivity]. intros x I. cbn in I. lia.
Qed.
(** 1 may go onto 2 *)
Lemma one_may_go : may_go strip strip_class all_marked [no_check] 1 3 0.
Proof.
  split; [exists 1; split; [reflexivity|lia]|]. split; [|intros ok [<-|[]]; reflexivity]. exists 2. split; [left; split; [reflexivity|apply row_strip; [lia|reflexivity]]|]. split; [exists 1; split; reflexivity|].
  change (t_dim strip) with 2. intros d c row s srow Hd Rc Iv Iw Rs Inc N. assert (d = 2) as -> by lia. destruct (strip_row 2 c row ltac:(lia) Rc) as [Ec Hc]. destruct (strip_row 1 s srow ltac:(lia) Rs) as [Es Hs].
  assert (forallb (fun c => match zget (strip_rows 2) c with Ok row => negb (has 1 row && has 2 row) || (c =? 2) | _ => false end) (zrange 4) = true) as H by (vm_compute; reflexivity). rewrite forallb_forall in H. specialize (H c ltac:(apply in_zrange; exact Hc)). rewrite Ec in H. apply has_in in Iv, Iw. rewrite Iv, Iw in H. cbn in H. apply Z.eqb_eq in H as ->.
  assert (forallb (fun s => match zget (strip_rows 1) s with Ok srow => negb (covers_row srow row) || has 2 srow || (s =? 5) | _ => false end) (zrange 9) = true) as H'. { vm_compute in Ec. injection Ec as <-. vm_compute. reflexivity. } rewrite forallb_forall in H'. specialize (H' s ltac:(apply in_zrange; exact Hs)). rewrite Es in H'. rewrite (proj2 (covers_incl srow row) Inc) in H'. cbn [negb orb] in H'. destruct (has 2 srow) eqn:E2; [apply has_in in E2; contradiction|]. cbn [orb] in H'. apply Z.eqb_eq in H' as ->.
  exists 2. split; reflexivity.
Qed.
