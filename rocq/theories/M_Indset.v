(** The distributed independent set: src/Omega_h_indset.cpp and src/Omega_h_indset_inline.hpp. *)
From Verif Require Import Prelude M_Array M_Dist M_Owners M_Graph.
Local Open Scope Z_scope.

(** src/Omega_h_indset_inline.hpp:12 enum *)
Definition NOT_IN := 0.
Definition IN := 1.
Definition UNKNOWN := 2.

(** src/Omega_h_indset.cpp:5-15 QualityCompare: is [u] worse than [v]?  A quality is a double that only gets compared: [Some] is
    its place in the order of numbers, [None] is NaN, which differs from everything and is less than nothing. *)
Definition quality_compare (quality : list (option Z)) (global : list Z) (u v : Z) : res bool :=
  v_qual <- zget quality v ;; u_qual <- zget quality u ;;
  match u_qual, v_qual with
  | Some a, Some b =>
      if negb (a =? b) then Ok (a <? b)
      else gu <- zget global u ;; gv <- zget global v ;; Ok (gu <? gv)
  | _, _ => Ok false
  end.

(** src/Omega_h_indset_inline.hpp:24-30 the first loop of local_iteration: is a neighbour chosen? *)
Fixpoint next_to_chosen (adj old_state js : list Z) : res bool :=
  match js with
  | [] => Ok false
  | j :: rest => u <- zget adj j ;; s <- zget old_state u ;; if s =? IN then Ok true else next_to_chosen adj old_state rest
  end.
(** src/Omega_h_indset_inline.hpp:32-37 the second loop: is the node better than all neighbours that were not rejected? *)
Fixpoint local_maximum (compare : Z -> Z -> res bool) (adj old_state : list Z) (v : Z) (js : list Z) : res bool :=
  match js with
  | [] => Ok true
  | j :: rest =>
      u <- zget adj j ;; s <- zget old_state u ;;
      if s =? NOT_IN then local_maximum compare adj old_state v rest
      else b <- compare u v ;; if b then local_maximum compare adj old_state v rest else Ok false
  end.
(** src/Omega_h_indset_inline.hpp:14-43 local_iteration on one rank.  Iteration [v] reads only the old state and writes only entry
    [v] of the copy, so the new array is given entry by entry. *)
Definition local_iteration (compare : Z -> Z -> res bool) (xadj adj old_state : list Z) : res (list Z) :=
  tabulate (zlen xadj - 1) (fun v =>
    s <- zget old_state v ;;
    if negb (s =? UNKNOWN) then Ok s else
    lo <- zget xadj v ;; hi <- zget xadj (v + 1) ;;
    hit <- next_to_chosen adj old_state (zfromto lo hi) ;;
    if hit then Ok NOT_IN else
    top <- local_maximum compare adj old_state v (zfromto lo hi) ;;
    if top then Ok IN else Ok s).

(** src/Omega_h_indset_inline.hpp:45-51 iteration, on all ranks; src/Omega_h_mesh.cpp:584-588 sync_array returns its argument when
    nothing can be shared *)
Definition iteration (inv : Z -> list Z -> Z -> res (list Z * list Z)) (shared : bool) (oranks oidxs : list (list Z))
    (graphs : list graph) (quality : list (list (option Z))) (global : list (list Z)) (state : list (list Z)) : res (list (list Z)) :=
  local <- tabulate (zlen graphs) (fun r =>
    g <- zget graphs r ;; q <- zget quality r ;; gl <- zget global r ;; old <- zget state r ;;
    local_iteration (quality_compare q gl) (a2ab g) (ab2b g) old) ;;
  if shared then sync_array inv oranks oidxs local 1 else Ok local.

(** get_max(comm, state), src/Omega_h_array_ops.cpp:47-58 and :66-68: -128 is the least I8.  That it is the same for every
    way of running the reduction is C52. *)
Definition max_state (state : list (list Z)) : Z := fold_left Z.max (map (fun a => fold_left Z.max a (-128)) state) (-128).

(** src/Omega_h_indset_inline.hpp:67-69 the loop; running out of [fuel] is [UB] *)
Fixpoint indset_loop (fuel : nat) (step : list (list Z) -> res (list (list Z))) (state : list (list Z)) : res (list (list Z)) :=
  match fuel with
  | O => UB
  | S fuel => if max_state state =? UNKNOWN then state' <- step state ;; indset_loop fuel step state' else Ok state
  end.

(** src/Omega_h_indset_inline.hpp:53-71 find with the comparison of src/Omega_h_indset.cpp:17-25, on all ranks *)
Definition find_indset (fuel : nat) (inv : Z -> list Z -> Z -> res (list Z * list Z)) (shared : bool) (oranks oidxs : list (list Z))
    (graphs : list graph) (quality : list (list (option Z))) (global candidates : list (list Z)) : res (list (list Z)) :=
  init <- tabulate (zlen graphs) (fun r =>
    g <- zget graphs r ;; c <- zget candidates r ;;
    if negb (zlen c =? zlen (a2ab g) - 1) then Abort else Ok (map (fun x => if x =? 0 then NOT_IN else UNKNOWN) c)) ;;
  indset_loop fuel (iteration inv shared oranks oidxs graphs quality global) init.
