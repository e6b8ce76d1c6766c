(** Model of the classification of box meshes: src/Omega_h_box.cpp:104-184.

    Coordinates and sizes are exact numbers, counted in halves of the width of a cell as in M_Box: the sizes x, y, z of the box
    are [2 * nx], [2 * ny], [2 * nz].  Rounding is not modelled. *)
From Coq Require Import String QArith.
From Verif Require Import Prelude M_Array M_Sort M_Template M_Align M_Adj M_ArrayOps M_MeshAdj M_Build M_Simplify M_Box.
Local Open Scope Z_scope.

(** x > y *)
Definition above (x y : Q) : bool := negb (Qle_bool x y).

(** src/Omega_h_mesh.cpp:822-849 average_field of all entities of a dimension other than 0, without rounding *)
Definition exact_average_field (c : chance) (m : amesh) (ent_dim ncomps : Z) (v2x : list Z) : res (option (amesh * list Q)) :=
  _ <- check (Z.rem (zlen v2x) ncomps =? 0) ;;
  ev2v <~ ask_adj c m ent_dim 0 ;;
  let degree := element_degree (a_family m) ent_dim 0 in
  out <- tabulate (a_nents m ent_dim) (fun e =>
    mapM (fun j =>
      comp <- foldM (fun comp k => v <- zget (adj_ab2b (snd ev2v)) (e * degree + k) ;; x <- zget v2x (v * ncomps + j) ;; Ok (comp + x)) (zrange degree) 0 ;;
      Ok (inject_Z comp / inject_Z degree)%Q) (zrange ncomps)) ;;
  Ok (Some (fst ev2v, concat out)).

(** the kernel of src/Omega_h_box.cpp:117-133 for one point [x]: the class identifier and the class dimension.  [l j] is the
    size of the box, [dists j] the distance from its surface within which a point counts as being on it *)
Definition class_of_point (dim : Z) (l dists : Z -> Q) (x : list Q) : res (Z * Z) :=
  foldM (fun st j =>
    let '(id, class_dim) := st in
    let id := id * 3 in
    xj <- zget x j ;;
    if above xj (l j - dists j)%Q then Ok (id + 2, class_dim)
    else if above xj (dists j) then Ok (id + 1, class_dim + 1)
    else Ok (id, class_dim)) (rev (zrange dim)) (0, 0).

(** src/Omega_h_box.cpp:104-137 classify_box_dim: the values of the tags "class_id" and "class_dim" *)
Definition classify_box_dim (dim : Z) (nel : Z -> Z) (centroids : list Q) : res (list Z * list Z) :=
  _ <- check (Z.rem (zlen centroids) dim =? 0) ;;
  let npts := Z.quot (zlen centroids) dim in
  let l := fun j => inject_Z (2 * nel j) in
  let dists := fun j => (l j / inject_Z (nel j * 32))%Q in
  out <- tabulate npts (fun i =>
    x <- mapM (fun j => zget centroids (i * dim + j)) (zrange dim) ;;
    class_of_point dim l dists x) ;;
  Ok (map fst out, map snd out).

(** src/Omega_h_box.cpp:142-160: the loop of classify_box over the dimensions [ds] *)
Fixpoint classify_dims (c : chance) (m : amesh) (coords : list Z) (nel : Z -> Z) (ds : list Z) : res (option (amesh * list (list Z * list Z))) :=
  match ds with
  | [] => Ok (Some (m, []))
  | ent_dim :: ds =>
      centroids <~ (if negb (ent_dim =? 0) then exact_average_field c m ent_dim (a_dim m) coords else Ok (Some (m, map inject_Z coords))) ;;
      tags <- classify_box_dim (a_dim m) nel (snd centroids) ;;
      rest <~ classify_dims c (fst centroids) coords nel ds ;;
      Ok (Some (fst rest, tags :: snd rest))
  end.

(** src/Omega_h_box.cpp:139-160 classify_box; in the model the tags of each dimension are returned *)
Definition classify_box (c : chance) (m : amesh) (coords : list Z) (nx ny nz : Z) : res (option (amesh * list (list Z * list Z))) :=
  let nel := fun j => match j with 0 => nx | 1 => ny | _ => nz end in
  _ <- check ((1 <=? a_dim m) && (a_dim m <=? 3)) ;;
  classify_dims c m coords nel (zrange (a_dim m + 1)).

(** src/Omega_h_box.cpp:162-184 get_box_class_sets: names of pairs of a class dimension and a class identifier *)
Definition get_box_class_sets (dim : Z) : list (string * list (Z * Z)) :=
  match dim with
  | 1 => [("x-"%string, [(0, 0)]); ("body"%string, [(1, 1)]); ("x+"%string, [(0, 2)])]
  | 2 => [("y-"%string, [(1, 1)]); ("x-"%string, [(1, 3)]); ("body"%string, [(2, 4)]); ("x+"%string, [(1, 5)]); ("y+"%string, [(1, 7)])]
  | 3 => [("z-"%string, [(2, 4)]); ("y-"%string, [(2, 10)]); ("x-"%string, [(2, 12)]); ("body"%string, [(3, 13)]);
          ("x+"%string, [(2, 14)]); ("y+"%string, [(2, 16)]); ("z+"%string, [(2, 22)])]
  | _ => []
  end.
