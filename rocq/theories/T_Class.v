(** C75: which entity of the geometric model each entity of the mesh is on. *)
From Coq Require Import Permutation.
From Verif Require Import Prelude M_Template M_Adj S_Adj M_MeshAdj S_MeshAdj X_MeshAdj M_Build S_Build M_Class S_Class P_Class P_Class4 P_Class5 X_Class X_Unmap.
Local Open Scope Z_scope.

(** finalize_classification completes what classification there is, if some entities have identifiers *)
Theorem classification_is_completed : forall T c m t, valid_topology T -> mesh_of T m -> whole_tags T t -> (exists d, 0 <= d <= t_dim T /\ c_ids t d <> None) ->
  exists o, finalize_classification c m t = Ok o /\ forall m' t', o = Some (m', t') -> derived T t t'.
Proof. exact completed. Qed.
(** and if none has, without giving any *)
Theorem classification_without_ids : forall T c m t m' t', valid_topology T -> mesh_of T m -> whole_tags T t -> (forall d, 0 <= d <= t_dim T -> c_ids t d = None) -> finalize_classification c m t = Ok (Some (m', t')) ->
  (forall d, 0 <= d <= t_dim T -> c_ids t' d = None) /\
  exists ids, (forall d a x, 0 <= d <= t_dim T -> ids d = Some a -> In x a -> x = -1) /\ derived T t (mk_ctags (c_dims t') ids).
Proof. exact finalize_no_ids. Qed.
(** there is a schedule under which it finishes, and the result is the same under all that do *)
Theorem classification_can_finish : forall T m t mem, valid_topology T -> mesh_of T m -> whole_tags T t -> exists first second r, finalize_classification (mk_chance mem first second (fun _ _ => false)) m t = Ok (Some r).
Proof. exact finalize_can_finish. Qed.
Theorem classification_is_one : forall T c m t m' t' c2 m2 m2' t2', valid_topology T -> mesh_of T m -> mesh_of T m2 -> whole_tags T t -> finalize_classification c m t = Ok (Some (m', t')) -> finalize_classification c2 m2 t = Ok (Some (m2', t2')) ->
  forall d, 0 <= d <= t_dim T -> c_dims t2' d = c_dims t' d /\ c_ids t2' d = c_ids t' d.
Proof. exact finalize_same. Qed.
(** class dimensions are proper and do not grow downwards, where they do not shrink the identifier stays, and given entities
    of the model's own dimension are kept *)
Theorem classification_fits : forall T c m t m' t', valid_topology T -> mesh_of T m -> whole_tags T t -> proper_dims T t -> (exists d, 0 <= d <= t_dim T /\ c_ids t d <> None) -> finalize_classification c m t = Ok (Some (m', t')) ->
  (forall d e c, 0 <= d <= t_dim T -> 0 <= e < t_nents T d -> has_class t' d e c -> d <= fst c <= t_dim T) /\
  (forall d e h c c', 0 <= d < t_dim T -> 0 <= e < t_nents T d -> In h (above T d e) -> has_class t' d e c -> has_class t' (d + 1) h c' -> fst c <= fst c' /\ (known_around T t t' -> fst c = fst c' -> snd c = snd c')) /\
  (forall d e id, 0 <= d <= t_dim T -> 0 <= e < t_nents T d -> given_class T t d e (d, id) -> has_class t' d e (d, id)).
Proof. exact finalize_fits. Qed.
(** from the regions alone: a side is inside a region if it is between two elements of it, and otherwise on a surface *)
Theorem classification_of_sides : forall T c m t m' t', valid_topology T -> mesh_of T m -> whole_tags T t -> proper_dims T t -> c_dims t (t_dim T - 1) = None -> c_ids t (t_dim T - 1) = None ->
  (exists ids, c_ids t (t_dim T) = Some ids /\ ~ In (-1) ids) -> finalize_classification c m t = Ok (Some (m', t')) -> forall s, 0 <= s < t_nents T (t_dim T - 1) ->
  exists k, has_class t' (t_dim T - 1) s k /\
  ((exists a b i, above T (t_dim T - 1) s = [a; b] /\ has_class t' (t_dim T) a (t_dim T, i) /\ has_class t' (t_dim T) b (t_dim T, i) /\ k = (t_dim T, i)) \/
   ((forall a b i, above T (t_dim T - 1) s = [a; b] -> has_class t' (t_dim T) a (t_dim T, i) -> ~ has_class t' (t_dim T) b (t_dim T, i)) /\ k = (t_dim T - 1, -1))).
Proof. exact finalize_sides. Qed.
(** completing it again changes nothing *)
Theorem classification_again : forall T c m t m' t' c2 m2 m2' t2', valid_topology T -> mesh_of T m -> mesh_of T m2 -> whole_tags T t -> proper_dims T t -> (exists d, 0 <= d <= t_dim T /\ c_ids t d <> None) -> finalize_classification c m t = Ok (Some (m', t')) ->
  known_around T t t' -> finalize_classification c2 m2 t' = Ok (Some (m2', t2')) -> forall d, 0 <= d <= t_dim T -> c_dims t2' d = c_dims t' d /\ c_ids t2' d = c_ids t' d.
Proof. exact finalize_again. Qed.
(** project_classification of one dimension; relaxed, it takes any mixture of known and unknown identifiers *)
Theorem projection_infers : forall T c m t d relaxed, valid_topology T -> mesh_of T m -> whole_tags T t -> 0 <= d < t_dim T -> c_dims t d <> None -> c_ids t d <> None -> c_dims t (d + 1) <> None -> c_ids t (d + 1) <> None ->
  exists o, project_tags c m t d relaxed = Ok o /\ forall m' t', o = Some (m', t') -> (forall i, i <> d -> c_dims t' i = c_dims t i /\ c_ids t' i = c_ids t i) /\
  forall e given highs, 0 <= e < t_nents T d -> has_class t d e given -> Forall2 (has_class t (d + 1)) (above T d e) highs -> relaxed = true \/ all_or_none given highs -> exists k, has_class t' d e k /\ inferred d given highs k.
Proof. exact project_tags_infers. Qed.
(** what is inferred is one class, *)
Theorem inferred_is_one : forall e given highs c c', inferred e given highs c -> inferred e given highs c' -> c = c'.
Proof. exact inferred_unique. Qed.
(** and the order in which the entities around are stored does not matter, *)
Theorem projection_ignores_order : forall e relaxed l2h l2h' hd hi dims ids l hs hs' r given highs, adj_targets l2h l = Ok hs -> adj_targets l2h' l = Ok hs' -> Permutation hs hs' -> project_one e relaxed l2h hd hi dims ids l = Ok r ->
  zget dims l = Ok (fst given) -> zget ids l = Ok (snd given) -> Forall2 (fun h c => zget hd h = Ok (fst c) /\ zget hi h = Ok (snd c)) hs highs -> relaxed = true \/ all_or_none given highs -> zlen dims = zlen ids -> zlen hd = zlen hi ->
  project_one e relaxed l2h' hd hi dims ids l = Ok r.
Proof. exact project_one_order. Qed.
(** but when identifiers are known of some and not of others it does: the same mesh with the same classes of edges, in another
    order, gets another class of the vertex between them. *)
Theorem classification_ignores_order_refuted : exists m m' r r', row_mesh false = Ok (Some m) /\ mesh_of (row_line false) m /\ row_mesh true = Ok (Some m') /\ mesh_of (row_line true) m' /\
  finalize_classification in_turn m (row_tags false) = Ok (Some r) /\ finalize_classification in_turn m' (row_tags true) = Ok (Some r') /\
  has_class (snd r) 1 0 (1, 5) /\ has_class (snd r) 1 1 (1, -1) /\ has_class (snd r') 1 1 (1, 5) /\ has_class (snd r') 1 0 (1, -1) /\ has_class (snd r) 0 1 (0, -1) /\ has_class (snd r') 0 1 (1, 5).
Proof. exact order_matters. Qed.
(** classify_equal_order: the entities described have the given class, the others none *)
Theorem given_entities_are_classified : forall T c m t d eqv2v ids names, valid_topology T -> mesh_of T m -> 0 <= d <= t_dim T -> t_family T = OMEGA_H_SIMPLEX \/ d <= 1 -> describes T d eqv2v names -> zlen ids = zlen names ->
  exists o, classify_equal_order c m t d eqv2v ids = Ok o /\ forall m' t', o = Some (m', t') ->
    (forall i, i <> d -> c_dims t' i = c_dims t i /\ c_ids t' i = c_ids t i) /\
    (forall a e id, zget names a = Ok e -> zget ids a = Ok id -> has_class t' d e (d, id)) /\
    (forall e, 0 <= e < t_nents T d -> ~ In e names -> has_class t' d e (t_dim T, -1)).
Proof. exact equal_order_ok. Qed.
(** The elements of a mesh of three or more quadrilaterals, or of hexahedra, cannot be classified in this way. *)
Theorem given_hypercubes_refuted : forall T c m t ev2v ids, valid_topology T -> mesh_of T m -> t_family T = OMEGA_H_HYPERCUBE -> (t_dim T = 2 /\ 3 <= t_nents T 2) \/ (t_dim T = 3 /\ 1 <= t_nents T 3) ->
  zlen ev2v = t_nents T (t_dim T) * element_degree (t_family T) (t_dim T) 0 -> classify_equal_order c m t (t_dim T) ev2v ids = Abort.
Proof. exact equal_order_aborts. Qed.
Print Assumptions classification_is_completed.
Print Assumptions classification_without_ids.
Print Assumptions classification_can_finish.
Print Assumptions classification_is_one.
Print Assumptions classification_fits.
Print Assumptions classification_of_sides.
Print Assumptions classification_again.
Print Assumptions projection_infers.
Print Assumptions inferred_is_one.
Print Assumptions projection_ignores_order.
Print Assumptions classification_ignores_order_refuted.
Print Assumptions given_entities_are_classified.
Print Assumptions given_hypercubes_refuted.

(** two tetrahedra of one region and of two: the face between them is inside the region, or on a surface *)
Example one_region : derive_in tets_adj (class_tags [] [(3, [1; 1])]) 3 =
  Ok (Some [(Some [2; 2; 2; 2; 2], Some [-1; -1; -1; -1; -1]); (Some [2; 2; 2; 2; 2; 2; 2; 2; 2], Some [-1; -1; -1; -1; -1; -1; -1; -1; -1]); (Some [2; 2; 2; 3; 2; 2; 2], Some [-1; -1; -1; 1; -1; -1; -1]); (Some [3; 3], Some [1; 1])]).
Proof. vm_compute. reflexivity. Qed.
Example two_regions : derive_in tets_adj (class_tags [] [(3, [1; 2])]) 3 =
  Ok (Some [(Some [2; 1; 1; 1; 2], Some [-1; -1; -1; -1; -1]); (Some [2; 2; 2; 1; 1; 2; 1; 2; 2], Some [-1; -1; -1; -1; -1; -1; -1; -1; -1]); (Some [2; 2; 2; 2; 2; 2; 2], Some [-1; -1; -1; -1; -1; -1; -1]); (Some [3; 3], Some [1; 2])]).
Proof. vm_compute. reflexivity. Qed.
(** the hypotheses hold of them *)
Example two_regions_meet : valid_topology tets /\ (exists m, tets_adj = Ok (Some m) /\ mesh_of tets m) /\ whole_tags tets (class_tags [] [(3, [1; 2])]) /\ proper_dims tets (class_tags [] [(3, [1; 2])]) /\ (exists ids, c_ids (class_tags [] [(3, [1; 2])]) (t_dim tets) = Some ids /\ ~ In (-1) ids).
Proof. exact two_regions_hyps. Qed.
(** one face of the two tetrahedra is given, by its vertices in another order *)
Example given_face : describes tets 2 [3; 1; 2] [3] /\ equal_order_in tets_adj 2 [3; 1; 2] [7] = Ok (Some (Some [3; 3; 3; 2; 3; 3; 3], Some [-1; -1; -1; 7; -1; -1; -1])).
Proof. exact given_face_found. Qed.
Example three_squares_abort : (r <- three_squares ;; match r with None => Ok false | Some (m, ev2v) => match classify_equal_order in_turn m (class_tags [] []) 2 ev2v [1; 1; 1] with Abort => Ok true | _ => Ok false end end) = Ok true.
Proof. vm_compute. reflexivity. Qed.
