(** C19: upward adjacency. *)
From Verif Require Import Prelude M_Par M_Map S_Map M_Graph S_Graph M_Align M_Adj S_Adj P_Adj.
Local Open Scope Z_scope.

(** For every interleaving that runs the kernels to the end, invert_adj lists for each low entity
    the elements that use it in increasing order, with the codes of the uses. *)
Theorem invert_adj_lists_uses : forall down nl nlows m0 s1 s2, 0 < nl -> 0 <= nlows -> (forall l, In l (adj_ab2b down) -> 0 <= l < nlows) ->
  no_repeats (adj_ab2b down) nl -> (forall c, adj_codes down = Some c -> zlen c = zlen (adj_ab2b down)) ->
  exists o, invert_adj down nl nlows m0 s1 s2 = Ok o /\
  forall up, o = Some up -> wf_adj up /\ zlen (adj_a2ab up) = nlows + 1 /\
  forall l, 0 <= l < nlows ->
    adj_targets up l = Ok (map (fun hl => hl / nl) (uses_of (adj_ab2b down) l)) /\
    adj_target_codes up l = Ok (map (use_code nl (adj_codes down)) (uses_of (adj_ab2b down) l)).
Proof. exact invert_adj_spec. Qed.
(** Hence the result does not depend on the interleaving or on previous memory contents. *)
Theorem invert_adj_schedule_independent : forall down nl nlows m0 s1 s2 m0' s1' s2' up up',
  0 < nl -> 0 <= nlows -> (forall l, In l (adj_ab2b down) -> 0 <= l < nlows) ->
  no_repeats (adj_ab2b down) nl -> (forall c, adj_codes down = Some c -> zlen c = zlen (adj_ab2b down)) ->
  invert_adj down nl nlows m0 s1 s2 = Ok (Some up) -> invert_adj down nl nlows m0' s1' s2' = Ok (Some up') -> up = up'.
Proof. exact invert_adj_deterministic. Qed.
(** The code names position and alignment of the use (elements have at most 12 sides of a kind). *)
Theorem upward_code_names_use : forall nl dc hl, 0 < nl <= 16 -> 0 <= hl -> (forall c, dc = Some c -> hl < zlen c) ->
  code_which_down (use_code nl dc hl) = hl mod nl /\
  match dc with
  | Some c => exists x, zget c hl = Ok x /\ code_is_flipped (use_code nl dc hl) = code_is_flipped x /\ code_rotation (use_code nl dc hl) = code_rotation x
  | None => code_is_flipped (use_code nl dc hl) = false /\ code_rotation (use_code nl dc hl) = 0
  end.
Proof. exact use_code_fields. Qed.
(** unmap_adjacency selects nodes, with targets and codes in order. *)
Theorem unmap_adjacency_selects : forall a2b b2c c, wf_adj b2c -> adj_codes b2c = Some c -> (forall b, In b a2b -> 0 <= b < zlen (adj_a2ab b2c) - 1) ->
  exists a2c, unmap_adjacency a2b b2c = Ok a2c /\ wf_adj a2c /\ zlen (adj_a2ab a2c) = zlen a2b + 1 /\
  forall a b, zget a2b a = Ok b -> adj_targets a2c a = adj_targets b2c b /\ adj_target_codes a2c a = adj_target_codes b2c b.
Proof. exact unmap_adjacency_spec. Qed.
Print Assumptions invert_adj_lists_uses.
Print Assumptions invert_adj_schedule_independent.
Print Assumptions upward_code_names_use.
Print Assumptions unmap_adjacency_selects.

(** Two triangles 0-1-2 and 2-1-3 (vertex adjacency, no codes) under two different interleavings. *)
Definition tris : adj := mk_adj [0; 3; 6] [0; 1; 2; 2; 1; 3] None.
Example tris_no_repeats : no_repeats (adj_ab2b tris) 3.
Proof.
  intros a b l Ha Hb E. pose proof (zget_bounds _ _ _ Ha) as Ba. pose proof (zget_bounds _ _ _ Hb) as Bb. change (zlen (adj_ab2b tris)) with 6 in *.
  assert (forallb (fun a => forallb (fun b => match zget (adj_ab2b tris) a, zget (adj_ab2b tris) b with Ok x, Ok y => negb (x =? y) || negb (a / 3 =? b / 3) || (a =? b) | _, _ => true end) (zrange 6)) (zrange 6) = true) as H by (vm_compute; reflexivity).
  rewrite forallb_forall in H. specialize (H a ltac:(apply in_zrange; lia)). rewrite forallb_forall in H. specialize (H b ltac:(apply in_zrange; lia)). cbv beta in H. rewrite Ha, Hb in H. lia.
Qed.
Example tris_up : invert_adj tris 3 4 (fun _ => 7) [0; 1; 2; 3; 4; 5]%nat [0; 1; 2; 3; 4; 5; 5; 4; 3; 2; 1; 0]%nat
  = Ok (Some (mk_adj [0; 1; 3; 5; 6] [0; 0; 1; 0; 1; 1] (Some [0; 8; 8; 16; 0; 16]))).
Proof. vm_compute. reflexivity. Qed.
Example tris_up' : invert_adj tris 3 4 (fun _ => -1) [5; 4; 3; 2; 1; 0]%nat [5; 4; 3; 2; 1; 0; 0; 1; 2; 3; 4; 5]%nat
  = Ok (Some (mk_adj [0; 1; 3; 5; 6] [0; 0; 1; 0; 1; 1] (Some [0; 8; 8; 16; 0; 16]))).
Proof. vm_compute. reflexivity. Qed.
