(** C48: parallel loops. *)
From Verif Require Import Prelude M_Par S_Par P_Par.

(** A conflict-free parallel loop gives, for every interleaving of its memory accesses, the memory the serial
    loop gives. *)
Theorem parallel_for_deterministic : forall V inputs own (m : mem V) ps schedule,
  (forall l i, own i l \/ ~ own i l) ->
  conflict_free inputs own ps ->
  all_done (run (m, ps) schedule) ->
  forall l, fst (run (m, ps) schedule) l = serial m ps l.
Proof. exact par_deterministic. Qed.
Print Assumptions parallel_for_deterministic.

(** The serial loop is one of the schedules, so complete schedules exist. *)
Theorem parallel_for_serial_schedule : forall V (m : mem V) ps,
  exists s, all_done (run (m, ps) s) /\ fst (run (m, ps) s) = serial m ps.
Proof. exact serial_complete_schedule. Qed.
Print Assumptions parallel_for_serial_schedule.

(** A kernel: out[i] = in[i] + in[i+1], three iterations; array 0 is [in], array 1 is [out]. *)
Definition ex_kernel (i : nat) : prog nat :=
  Rd (0, i) (fun a => Rd (0, S i) (fun b => Wr (1, i) (a + b) Done)).
Example par_ex_conflict_free :
  conflict_free (fun l => fst l = 0) (fun i l => l = (1, i)) (map ex_kernel [0; 1; 2]).
Proof.
  split; [|split].
  - intros i p H. assert (p = ex_kernel i) as ->.
    { destruct i as [|[|[|i]]]; cbn in H; try congruence. destruct i; discriminate. }
    unfold ex_kernel. constructor; [left; reflexivity|]. intros a. constructor; [left; reflexivity|].
    intros b. constructor; [reflexivity|constructor].
  - intros i j l -> E. congruence.
  - intros i l -> E. discriminate.
Qed.
Example par_ex_run :
  all_done (run ((fun l => if fst l =? 0 then snd l * 10 else 0), map ex_kernel [0; 1; 2]) [2; 0; 2; 1; 1; 2; 0; 1; 0]) /\
  fst (run ((fun l => if fst l =? 0 then snd l * 10 else 0), map ex_kernel [0; 1; 2]) [2; 0; 2; 1; 1; 2; 0; 1; 0]) (1, 2) = 50.
Proof. split; [repeat constructor|reflexivity]. Qed.
