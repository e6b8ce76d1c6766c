(** Example data for C84. *)
From Coq Require Import Lia Sorted.
From Verif Require Import Prelude M_Array M_Map M_Graph S_Graph P_Graph M_Mark S_Mark M_Cavs S_Cavs P_Cavs P_Cavs2.
Local Open Scope Z_scope.

Lemma targets_among L v es : targets (of_lists L) v = Ok es -> In es L.
Proof.
  intros T. pose proof (targets_bound _ _ _ T) as B. rewrite nnodes_of_lists in B. destruct (zget_in_range L v B) as (x & Ex).
  rewrite (targets_of_lists L v x Ex) in T. injection T as <-. exact (zget_In _ _ _ Ex).
Qed.

(** Key 0: four old elements of two colours and three new ones, one of a colour that no old element has.  Key 1: nothing old, one new
    element.  Key 2 and key 3: two old elements and two new ones. *)
Definition xcavs := mk_cavs (of_lists [[0; 1; 2; 3]; []; [4; 7]; [5; 6]]) (of_lists [[0; 1; 2]; [3]; [6; 7]; [4; 5]]).
Definition xold := [1; 2; 1; 2; 1; 7; 8; 1].
Definition xnew := [2; 1; 3; 1; 8; 7; 1; 1].
Definition xold_bdry := [0; 0; 0; 0; 1; 1; 1; 0].
Definition xnew_bdry := [0; 0; 0; 0; 1; 1; 0; 1].
Lemma xcavs_ok oc nc : zlen oc = 8 -> zlen nc = 8 -> cavs_ok xcavs oc nc.
Proof.
  intros Lo Ln. constructor; cbn [xcavs keys2old keys2new]; try apply of_lists_wf; try (vm_compute; reflexivity).
  - intros e H. vm_compute in H. rewrite Lo. intuition lia.
  - intros e H. vm_compute in H. rewrite Ln. intuition lia.
  - intros key es H. apply targets_among in H. cbn in H. intuition (subst; vm_compute; discriminate).
  - intros key es H. apply targets_among in H. cbn in H. intuition (subst; vm_compute; discriminate).
Qed.
Lemma xcavs_by_color : cavs_ok xcavs xold xnew.
Proof. apply xcavs_ok; reflexivity. Qed.
Lemma xcavs_by_bdry : cavs_ok xcavs xold_bdry xnew_bdry.
Proof. apply xcavs_ok; reflexivity. Qed.
Lemma xold_bdry_bits : forall x, In x xold_bdry -> x = 0 \/ x = 1.
Proof. intros x H. cbn in H. intuition lia. Qed.
Definition xkds := [4; 0; 2; 1].
Definition xdims := [3; 2; 3; 3; 3].
Lemma xkds_in : forall kd, In kd xkds -> 0 <= kd < zlen xdims.
Proof. intros x H. cbn in H. change (zlen xdims) with 5. intuition lia. Qed.

(** One key with 128 old elements of one colour and one new element of that colour *)
Definition big_cavs := mk_cavs (of_lists [zrange 128]) (of_lists [[0]]).
Definition big_old := repeat 5 128.
Definition big_new := [5].
Lemma too_big_w : exists c oc nc rounds olds,
  wf_graph (keys2old c) /\ wf_graph (keys2new c) /\ nnodes (keys2old c) = nnodes (keys2new c) /\
  (forall e, In e (ab2b (keys2old c)) -> 0 <= e < zlen oc) /\ (forall e, In e (ab2b (keys2new c)) -> 0 <= e < zlen nc) /\
  targets (keys2old c) 0 = Ok olds /\ zlen olds = 128 /\
  (forall fuel, (2 <= fuel)%nat -> separate_by_color fuel c oc nc = Ok (Some rounds)) /\
  forall r, In r rounds -> targets (keys2old r) 0 = Ok [].
Proof.
  destruct (separate_by_color 2 big_cavs big_old big_new) as [[rounds|]| |] eqn:E; [|vm_compute in E; discriminate..].
  exists big_cavs, big_old, big_new, rounds, (zrange 128).
  split; [apply of_lists_wf|]. split; [apply of_lists_wf|]. split; [vm_compute; reflexivity|].
  split. { intros e H. cbn [big_cavs keys2old of_lists ab2b concat] in H. rewrite app_nil_r in H. apply in_zrange in H. change (zlen big_old) with 128. exact H. }
  split. { intros e H. cbn in H. change (zlen big_new) with 1. intuition lia. }
  split; [apply targets_of_lists; reflexivity|]. split; [vm_compute; reflexivity|]. split; [exact (separate_more _ _ _ _ _ E)|].
  intros r H. assert (F : forallb (fun r => match targets (keys2old r) 0 with Ok [] => true | _ => false end) rounds = true).
  { vm_compute in E. injection E as <-. vm_compute. reflexivity. }
  rewrite forallb_forall in F. specialize (F r H). destruct (targets (keys2old r) 0) as [[|]| |]; [reflexivity|discriminate..].
Qed.
