(** Specification vocabulary: neighbours through another entity. *)
From Verif Require Import Prelude M_Align M_Adj S_Adj.
Local Open Scope Z_scope.

(** [up] lists for each low entity its uses in increasing order, with their codes: what invert_adj makes *)
Definition lists_uses (deg nlows : Z) (hl2l : list Z) (down_codes : option (list Z)) (up : adj) : Prop :=
  wf_adj up /\ zlen (adj_a2ab up) = nlows + 1 /\ adj_codes up <> None /\
  forall l, 0 <= l < nlows ->
    adj_targets up l = Ok (map (fun u => u / deg) (uses_of hl2l l)) /\
    adj_target_codes up l = Ok (map (use_code deg down_codes) (uses_of hl2l l)).

(** the other elements using the sides of [e], side after side *)
Definition across_sides (deg : Z) (hl2l : list Z) (e : Z) : list Z :=
  flat_map (fun i => match zget hl2l (e * deg + i) with
    | Ok s => filter (fun e' => negb (e' =? e)) (map (fun u => u / deg) (uses_of hl2l s))
    | _ => [] end) (zrange deg).

(** the pair of edges after edge [u mod 3] in the triangle of use [u] *)
Definition next_edges (fe2e : list Z) (u : Z) : res (list Z) :=
  a <- zget fe2e (u / 3 * 3 + (u mod 3 + 1) mod 3) ;; b <- zget fe2e (u / 3 * 3 + (u mod 3 + 2) mod 3) ;; Ok [a; b].
