(** Model of src/Omega_h_class.cpp without the angles: which entity of the geometric model each entity of the mesh is on.

    The mesh is on one rank, where owners_have_all_upward (src/Omega_h_mesh.cpp:713-720) holds and sync_array returns its
    argument (src/Omega_h_mesh.cpp:584-588).  A class dimension is an I8 that --best_dim does not take out of the type. *)
From Verif Require Import Prelude M_Array M_Map M_Template M_Align M_Adj M_Match M_MeshAdj M_Mark.
Local Open Scope Z_scope.

(** the tags "class_dim" and "class_id" of the entities of each dimension, where they exist *)
Record ctags := mk_ctags { c_dims : Z -> option (list Z); c_ids : Z -> option (list Z) }.

(** src/Omega_h_mesh.cpp:132-160 add_tag of both tags, with one value for each entity *)
Definition add_class (m : amesh) (t : ctags) (d : Z) (dims ids : list Z) : res ctags :=
  _ <- check (zlen dims =? a_nents m d) ;; _ <- check (zlen ids =? a_nents m d) ;;
  Ok (mk_ctags (fun i => if i =? d then Some dims else c_dims t i) (fun i => if i =? d then Some ids else c_ids t i)).
(** Mesh::get_array: fails if the tag does not exist *)
Definition get_tag (t : Z -> option (list Z)) (d : Z) : res (list Z) := match t d with Some a => Ok a | None => Abort end.

(** the body of the loop of src/Omega_h_class.cpp:106-128; the state is best_dim, best_id, nadj *)
Definition best_step (relaxed : bool) (st : Z * Z * Z) (high_dim high_id : Z) : Z * Z * Z :=
  let '(best_dim, best_id, nadj) := st in
  if high_dim <? best_dim then (high_dim, high_id, 1)
  else if high_dim =? best_dim then
    if negb (high_id =? best_id) && (negb relaxed || negb (high_id =? -1)) then
      if best_id =? -1 then (best_dim, high_id, nadj + 1) else (best_dim - 1, -1, 0)
    else (best_dim, best_id, nadj + 1)
  else st.
(** src/Omega_h_class.cpp:129-135 *)
Definition best_end (ent_dim : Z) (st : Z * Z * Z) : Z * Z :=
  let '(best_dim, best_id, nadj) := st in
  if (negb (nadj =? 2) && (best_dim =? ent_dim + 1)) || ((nadj <? 2) && (ent_dim + 1 <? best_dim)) then (ent_dim, -1) else (best_dim, best_id).
(** src/Omega_h_class.cpp:102-136 the kernel: the class dimension and the class identifier of entity [l] *)
Definition project_one (ent_dim : Z) (relaxed : bool) (l2h : adj) (high_class_dim high_class_id class_dim class_id : list Z) (l : Z) : res (Z * Z) :=
  best_dim <- zget class_dim l ;; best_id <- zget class_id l ;;
  lo <- zget (adj_a2ab l2h) l ;; hi <- zget (adj_a2ab l2h) (l + 1) ;;
  st <- foldM (fun st lh =>
    h <- zget (adj_ab2b l2h) lh ;; high_dim <- zget high_class_dim h ;; high_id <- zget high_class_id h ;;
    Ok (best_step relaxed st high_dim high_id)) (zfromto lo hi) (best_dim, best_id, 0) ;;
  Ok (best_end ent_dim st).
(** src/Omega_h_class.cpp:95-138 project_classification; each iteration sets its own entry *)
Definition project_classification (c : chance) (m : amesh) (t : ctags) (ent_dim : Z) (class_dim class_id : list Z) (relaxed : bool)
  : res (option (amesh * (list Z * list Z))) :=
  l2h <~ ask_up c m ent_dim (ent_dim + 1) ;;
  high_class_dim <- get_tag (c_dims t) (ent_dim + 1) ;; high_class_id <- get_tag (c_ids t) (ent_dim + 1) ;;
  out <- tabulate (a_nents m ent_dim) (project_one ent_dim relaxed (snd l2h) high_class_dim high_class_id class_dim class_id) ;;
  Ok (Some (fst l2h, (map fst out, map snd out))).
(** src/Omega_h_class.cpp:140-147 project_classification of the tags that exist *)
Definition project_tags (c : chance) (m : amesh) (t : ctags) (ent_dim : Z) (relaxed : bool) : res (option (amesh * ctags)) :=
  ids <- get_tag (c_ids t) ent_dim ;; dims <- get_tag (c_dims t) ent_dim ;;
  r <~ project_classification c m t ent_dim dims ids relaxed ;;
  t <- add_class (fst r) t ent_dim (fst (snd r)) (snd (snd r)) ;; Ok (Some (fst r, t)).

(** src/Omega_h_class.cpp:70-75 has_any_ids *)
Definition has_any_ids (m : amesh) (t : ctags) : bool := existsb (fun d => match c_ids t d with Some _ => true | None => false end) (zrange (a_dim m + 1)).
(** src/Omega_h_class.cpp:83-93 copy_and_remove_or_default; the tag is added again below *)
Definition copy_or_default (m : amesh) (tag : Z -> option (list Z)) (d def_val : Z) : res (list Z) :=
  match tag d with Some a => Ok a | None => filled (a_nents m d) def_val end.
(** src/Omega_h_class.cpp:151-166: the loop over the dimensions [ds] *)
Fixpoint finalize_dims (c : chance) (m : amesh) (t : ctags) (ds : list Z) : res (option (amesh * ctags)) :=
  match ds with
  | [] => Ok (Some (m, t))
  | d :: ds =>
      dims <- copy_or_default m (c_dims t) d (a_dim m) ;; ids <- copy_or_default m (c_ids t) d (-1) ;;
      r <~ (if d <? a_dim m then project_classification c m t d dims ids false else Ok (Some (m, (dims, ids)))) ;;
      t <- add_class (fst r) t d (fst (snd r)) (snd (snd r)) ;;
      finalize_dims c (fst r) t ds
  end.
(** src/Omega_h_class.cpp:149-167 finalize_classification; remove_all_ids (:77-81) *)
Definition finalize_classification (c : chance) (m : amesh) (t : ctags) : res (option (amesh * ctags)) :=
  let had_ids := has_any_ids m t in
  r <~ finalize_dims c m t (rev (zrange (a_dim m + 1))) ;;
  Ok (Some (fst r, if had_ids then snd r else mk_ctags (c_dims (snd r)) (fun _ => None))).

(** src/Omega_h_class.cpp:169-198 classify_equal_order *)
Definition classify_equal_order (c : chance) (m : amesh) (t : ctags) (ent_dim : Z) (eqv2v eq_class_ids : list Z) : res (option (amesh * ctags)) :=
  r <~ (if ent_dim =? a_dim m then Ok (Some (m, zrange (a_nents m ent_dim)))
        else if ent_dim =? 0 then Ok (Some (m, eqv2v))
        else ev2v <~ ask_down c m ent_dim 0 ;;
             v2e <~ ask_up c (fst ev2v) 0 ent_dim ;;
             f <- find_matches (a_family m) ent_dim eqv2v (adj_ab2b (snd ev2v)) (snd v2e) ;;
             Ok (Some (fst v2e, fst f))) ;;
  let eq2e := snd r in
  let neq := Z.quot (zlen eqv2v) (ent_dim + 1) in
  eq_class_dim <- filled neq ent_dim ;;
  class_dim <- map_onto eq_class_dim eq2e (a_nents m ent_dim) (a_dim m) 1 ;;
  class_id <- map_onto eq_class_ids eq2e (a_nents m ent_dim) (-1) 1 ;;
  t <- add_class (fst r) t ent_dim class_dim class_id ;; Ok (Some (fst r, t)).
