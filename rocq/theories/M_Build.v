(** Model of building a mesh from its elements on one rank: src/Omega_h_build.cpp:19-105 *)
From Verif Require Import Prelude M_Array M_Par M_Scan M_Sort M_Map M_Template M_Align M_Adj M_Transit M_Unique M_Match M_MeshAdj M_ArrayOps.
Local Open Scope Z_scope.

(** The mesh with its adjacencies, and per dimension the values of the tag "global" (M_Tags models
    tags in general). *)
Record built := mk_built { b_mesh : amesh; b_globals : Z -> option (list Z) }.

(** src/Omega_h_mesh.cpp add_tag as used here: one value per entity of a dimension that is there *)
Definition tag_globals (b : built) (d : Z) (globals : list Z) : res built :=
  _ <- check_dim2 (b_mesh b) d ;;
  _ <- check (zlen globals =? a_nents (b_mesh b) d) ;;
  Ok (mk_built (b_mesh b) (fun i => if i =? d then Some globals else b_globals b i)).

(** src/Omega_h_build.cpp:19-56 add_ents2verts when comm->size() is 1.  ask_verts_of (src/Omega_h_mesh.cpp:246)
    is ask_adj(dim, VERT).ab2b. *)
Definition add_ents2verts (c : chance) (b : built) (ent_dim : Z) (ev2v : list Z) : res (option built) :=
  let m := b_mesh b in
  ne <- divide_no_remainder (zlen ev2v) (element_degree (a_family m) ent_dim 0) ;;
  if ent_dim =? 1 then
    m' <- set_ents m ent_dim (mk_adj [] ev2v None) ;;
    b' <- tag_globals (mk_built m' (b_globals b)) ent_dim (zrange ne) ;; Ok (Some b')
  else
    let ldim := ent_dim - 1 in
    l2v <~ ask_adj c m ldim 0 ;;
    v2l <~ ask_up c (fst l2v) 0 ldim ;;
    down <- reflect_down_v2l ev2v (adj_ab2b (snd l2v)) (snd v2l) (a_family m) ent_dim ldim ;;
    m' <- set_ents (fst v2l) ent_dim (mk_adj [] (fst down) (Some (snd down))) ;;
    b' <- tag_globals (mk_built m' (b_globals b)) ent_dim (zrange ne) ;; Ok (Some b').

(** src/Omega_h_build.cpp:58-67 build_verts_from_globals when comm->size() is 1, after set_family and set_dim *)
Definition build_verts_from_globals (f : family) (dim : Z) (vert_globals : list Z) : res built :=
  m <- new_mesh f dim (zlen vert_globals) ;;
  tag_globals (mk_built m (fun _ => None)) 0 vert_globals.

(** the loop of src/Omega_h_build.cpp:73-76 *)
Fixpoint add_sides (c : chance) (b : built) (ev2v : list Z) (mdims : list Z) : res (option built) :=
  match mdims with
  | [] => Ok (Some b)
  | mdim :: mdims =>
    mv2v <- find_unique ev2v (a_family (b_mesh b)) (a_dim (b_mesh b)) mdim ;;
    b' <~ add_ents2verts c b mdim mv2v ;;
    add_sides c b' ev2v mdims
  end.

(** src/Omega_h_build.cpp:69-81 build_ents_from_elems2verts when comm->size() is 1; reorder_by_globals, for vertices
    that do not come in the order of their globals, is not modelled here and counts as undefined *)
Definition build_ents_from_elems2verts (c : chance) (be : backend) (b : built) (ev2v vert_globals : list Z) : res (option built) :=
  let elem_dim := a_dim (b_mesh b) in
  b1 <~ add_sides c b ev2v (zfromto 1 elem_dim) ;;
  b2 <~ add_ents2verts c b1 elem_dim ev2v ;;
  sorted <- is_sorted be vert_globals ;;
  if sorted then Ok (Some b2) else UB.

(** src/Omega_h_build.cpp:83-99 both build_from_elems2verts; the second takes the number of vertices *)
Definition build_from_elems2verts (c : chance) (be : backend) (f : family) (edim : Z) (ev2v : list Z) (nverts : Z) : res (option built) :=
  let vert_globals := zrange nverts in
  b <- build_verts_from_globals f edim vert_globals ;;
  build_ents_from_elems2verts c be b ev2v vert_globals.
