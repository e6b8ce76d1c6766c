(** C12: inverting a map. *)
From Verif Require Import Prelude M_Array M_Par S_Par M_Scan M_Sort M_Map S_Map P_Invert.
Local Open Scope Z_scope.

(** invert_map_by_sorting: for each target its sources, in increasing order. *)
Theorem invert_map_by_sorting_inverts : forall a2b nb, 0 <= nb -> (forall b, In b a2b -> 0 <= b < nb) ->
  exists b2ba ba2a, invert_map_by_sorting a2b nb = Ok (b2ba, ba2a) /\ inverts a2b nb b2ba ba2a /\
  (forall b i j x y, in_group b2ba b i -> in_group b2ba b j -> i < j -> zget ba2a i = Ok x -> zget ba2a j = Ok y -> x < y).
Proof. exact invert_map_by_sorting_spec. Qed.
Print Assumptions invert_map_by_sorting_inverts.

(** invert_map_by_atomics: for every interleaving [s1], [s2] of the two kernels that runs them to the
    end, the result inverts the map, and no memory outside the arrays of the function is written. *)
Theorem invert_map_by_atomics_inverts : forall a2b nb m0 s1 s2, 0 <= nb -> (forall b, In b a2b -> 0 <= b < nb) ->
  exists o, invert_map_by_atomics a2b nb m0 s1 s2 = Ok o /\
  forall b2ba ba2a m, o = Some (b2ba, ba2a, m) -> inverts a2b nb b2ba ba2a /\
  (forall k i, ~ ((k = 0 \/ k = 1)%nat /\ Z.of_nat i < nb) -> ~ (k = 2%nat /\ Z.of_nat i < zlen a2b) -> m (k, i) = m0 (k, i)).
Proof. exact invert_map_by_atomics_spec. Qed.
Print Assumptions invert_map_by_atomics_inverts.

Example invert_map_by_sorting_ex : invert_map_by_sorting [2; 0; 2; 0; 3] 4 = Ok ([0; 2; 2; 4; 5], [1; 3; 0; 2; 4]).
Proof. reflexivity. Qed.
(* two different interleavings; the lists come out in a different order *)
Definition graph_of (o : res (option (list Z * list Z * mem Z))) := match o with Ok (Some (f, l, _)) => Some (f, l) | _ => None end.
Example invert_map_by_atomics_ex1 :
  graph_of (invert_map_by_atomics [2; 0; 2; 0; 3] 4 (fun _ => 77) [0; 1; 2; 3; 4]%nat [0; 1; 2; 3; 4; 0; 1; 2; 3; 4]%nat)
  = Some ([0; 2; 2; 4; 5], [1; 3; 0; 2; 4]).
Proof. reflexivity. Qed.
Example invert_map_by_atomics_ex2 :
  graph_of (invert_map_by_atomics [2; 0; 2; 0; 3] 4 (fun _ => 77) [4; 1; 2; 3; 0]%nat [3; 2; 2; 1; 0; 3; 0; 4; 4; 1]%nat)
  = Some ([0; 2; 2; 4; 5], [3; 1; 2; 0; 4]).
Proof. reflexivity. Qed.
