(** Model of recursive bisection (src/Omega_h_inertia.cpp) and of Mesh::balance (src/Omega_h_mesh.cpp).  All ranks run these functions
    together; an array on each rank is a list with one entry per rank. *)
From Verif Require Import Prelude M_Array M_Sort M_Map M_Linpart M_Bipart M_Dist M_Migrate M_Ghost M_Parting.
Local Open Scope Z_scope.

(** src/Omega_h_inertia.cpp:163-189 recursively_bisect, on the ranks of one communicator.  [mark path coords masses] are the marks
    mark_bisection or mark_bisection_given_axis return on its ranks; floating point is not modelled, so they are a parameter, which may
    differ from one communicator to the other: [path] lists the colours that led to this one, the last first.  The axes kept as hints
    only serve to choose marks.  The colours of comm->split are rank / halfsize: the communicator of the first half of the ranks runs
    on beside that of the second.  [fuel] bounds the depth of the recursion. *)
Fixpoint recursively_bisect {T} (fuel : nat) (inv : Z -> list Z -> Z -> res (list Z * list Z)) (mark : list Z -> list (list T) -> list (list T) -> res (list (list Z)))
    (path : list Z) (coords masses : list (list T)) (ranks idxs : list (list Z)) : res (list (list T) * list (list T) * list (list Z) * list (list Z)) :=
  let size := zlen masses in
  if size =? 1 then Ok (coords, masses, ranks, idxs) else
  match fuel with
  | O => UB
  | S fuel =>
    _ <- mapM (fun r => c <- zget coords r ;; m <- zget masses r ;; check (zlen c =? zlen m * 3)) (zrange size) ;;
    marks <- mark path coords masses ;;
    '(dests, linsizes) <- bi_partition marks ;;
    ds <- make_dist inv (map (map fst) dests) (map (map snd) dests) linsizes ;;
    coords <- exch ds coords 3 ;;
    masses <- exch ds masses 1 ;;
    '(ranks, idxs) <- exch_remotes ds (ranks, idxs) 1 ;;
    halfsize <- divide_no_remainder size 2 ;;
    let h := Z.to_nat halfsize in
    '(coords0, masses0, ranks0, idxs0) <- recursively_bisect fuel inv mark (0 :: path) (firstn h coords) (firstn h masses) (firstn h ranks) (firstn h idxs) ;;
    '(coords1, masses1, ranks1, idxs1) <- recursively_bisect fuel inv mark (1 :: path) (skipn h coords) (skipn h masses) (skipn h ranks) (skipn h idxs) ;;
    Ok (coords0 ++ coords1, masses0 ++ masses1, ranks0 ++ ranks1, idxs0 ++ idxs1)
  end.

(** src/Omega_h_mesh.cpp:561-567 the end of balance: from the owners each rank is to have to the migration *)
Definition migrate_to (inv : Z -> list Z -> Z -> res (list Z * list Z)) (m : dmesh) (elems : dents) (ranks idxs : list (list Z)) : res dmesh :=
  unsorted_new2owners <- make_dist inv ranks idxs (de_nents elems) ;;
  let owners2new := invert unsorted_new2owners in
  owner_globals <- globals elems ;;
  owners2new <- set_dest_globals owners2new owner_globals ;;
  migrate_mesh inv m (invert owners2new) OMEGA_H_ELEM_BASED.

(** src/Omega_h_mesh.cpp:536-568 balance.  [weigh m] are the centres and the masses of the elements, :542-557, which are floating point
    numbers and a parameter here.  copy_meta (:722-732) keeps the partition set_parting has noted. *)
Definition balance {T} (inv : Z -> list Z -> Z -> res (list Z * list Z)) (ask : dmesh -> res asked) (weigh : dmesh -> res (list (list T) * list (list T)))
    (mark : list Z -> list (list T) -> list (list T) -> res (list (list Z))) (size : Z) (pm : pmesh) : res pmesh :=
  if size =? 1 then Ok pm else
  pm <- set_parting_default inv ask size pm OMEGA_H_ELEM_BASED ;;
  let m := pm_mesh pm in
  elems <- elems_of m ;;
  '(ecoords, masses) <- weigh m ;;
  '(_, _, ranks, idxs) <- recursively_bisect (Z.to_nat size) inv mark [] ecoords masses (de_ranks elems) (de_idxs elems) ;;
  m <- migrate_to inv m elems ranks idxs ;;
  Ok (PMesh m (pm_parting pm) (pm_layers pm)).
