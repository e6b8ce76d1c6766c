(** Specification vocabulary for compressed graphs: the list of targets of each node. *)
From Verif Require Import Prelude M_Array M_Graph S_Map.
Local Open Scope Z_scope.

(** the targets of node [v], in order *)
Definition targets (g : graph) (v : Z) : res (list Z) :=
  lo <- zget (a2ab g) v ;; hi <- zget (a2ab g) (v + 1) ;; mapM (zget (ab2b g)) (zfromto lo hi).

(** offsets describe a partition of the edge array into one group per node *)
Definition wf_graph (g : graph) : Prop := is_fan (a2ab g) /\ last_of (a2ab g) = Ok (zlen (ab2b g)).

(** [keep] restricted to the edges of node [v], and the targets that survive *)
Definition kept_targets (g : graph) (keep : list Z) (v : Z) : res (list Z) :=
  lo <- zget (a2ab g) v ;; hi <- zget (a2ab g) (v + 1) ;;
  mapM (zget (ab2b g)) (filter (fun e => match zget keep e with Ok k => negb (k =? 0) | _ => false end) (zfromto lo hi)).

(** the number of marked edges of a node *)
Definition marked_edges (g : graph) (keep : list Z) (v : Z) : res Z :=
  lo <- zget (a2ab g) v ;; hi <- zget (a2ab g) (v + 1) ;;
  Ok (zlen (filter (fun e => match zget keep e with Ok k => negb (k =? 0) | _ => false end) (zfromto lo hi))).
