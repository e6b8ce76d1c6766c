(** Specification vocabulary for adjacencies. *)
From Verif Require Import Prelude M_Graph S_Graph M_Adj M_Align S_Map.
Local Open Scope Z_scope.

(** the entities adjacent to [v], and their codes, in order *)
Definition adj_targets (a : adj) (v : Z) : res (list Z) := targets (mk_graph (adj_a2ab a) (adj_ab2b a)) v.
Definition adj_target_codes (a : adj) (v : Z) : res (list Z) :=
  match adj_codes a with Some c => targets (mk_graph (adj_a2ab a) c) v | None => UB end.
Definition wf_adj (a : adj) : Prop :=
  is_fan (adj_a2ab a) /\ zget (adj_a2ab a) (zlen (adj_a2ab a) - 1) = Ok (zlen (adj_ab2b a)) /\
  forall c, adj_codes a = Some c -> zlen c = zlen (adj_ab2b a).

(** the places where the low entity [l] is used: position hl stands for side hl mod n of element hl / n *)
Definition uses_of (hl2l : list Z) (l : Z) : list Z :=
  filter (fun hl => match zget hl2l hl with Ok x => x =? l | _ => false end) (zrange (zlen hl2l)).

(** the code of an upward adjacency: position of the side in the element, flip and rotation of the use *)
Definition use_code (nlows_per_high : Z) (down_codes : option (list Z)) (hl : Z) : Z :=
  match down_codes with
  | Some c => match zget c hl with Ok x => make_code (code_is_flipped x) (code_rotation x) (hl mod nlows_per_high) | _ => 0 end
  | None => make_code false 0 (hl mod nlows_per_high)
  end.

(** no element uses the same low entity twice *)
Definition no_repeats (hl2l : list Z) (nl : Z) : Prop := forall a b l, zget hl2l a = Ok l -> zget hl2l b = Ok l -> a / nl = b / nl -> a = b.
