(** Model of the adjacency cache of Mesh: src/Omega_h_mesh.cpp:76-90,220-270,283-357,570-582 *)
From Verif Require Import Prelude M_Array M_Par M_Scan M_Sort M_Map M_Template M_Align M_Adj M_Transit M_Mark M_Across M_Graph.
Local Open Scope Z_scope.

(** The part of class Mesh (src/Omega_h_mesh.hpp) that matters here.  nents_ and adjs_ are arrays of
    size 4 and 4x4; all accesses are behind check_dim, so they are functions here. *)
Record amesh := mk_amesh { a_family : family; a_dim : Z; a_nents : Z -> Z; a_adjs : Z -> Z -> option adj }.

(** a mesh after set_family, set_dim (:76-83) and set_verts (:85): nents_ of the other dimensions is -1,
    as the constructor leaves it *)
Definition new_mesh (f : family) (dim nverts : Z) : res amesh :=
  _ <- check (1 <=? dim) ;; _ <- check (dim <=? 3) ;;
  Ok (mk_amesh f dim (fun d => if d =? 0 then nverts else -1) (fun _ _ => None)).

Definition with_adj (m : amesh) (from to : Z) (a : adj) : amesh :=
  mk_amesh (a_family m) (a_dim m) (a_nents m) (fun i j => if (i =? from) && (j =? to) then Some a else a_adjs m i j).
Definition with_nents (m : amesh) (d n : Z) : amesh :=
  mk_amesh (a_family m) (a_dim m) (fun i => if i =? d then n else a_nents m i) (a_adjs m).

(** src/Omega_h_mesh.cpp:281-284 check_dim, :223-226 has_ents, :286-289 check_dim2 *)
Definition check_dim (m : amesh) (d : Z) : res unit := _ <- check (0 <=? d) ;; check (d <=? a_dim m).
Definition has_ents (m : amesh) (d : Z) : res bool := _ <- check_dim m d ;; Ok (0 <=? a_nents m d).
Definition check_dim2 (m : amesh) (d : Z) : res unit := _ <- check_dim m d ;; h <- has_ents m d ;; check h.

(** src/Omega_h_mesh.cpp:291-311 add_adj for a downward adjacency (to < from), the only kind that
    set_ents adds.  The offset array of such an adjacency does not exist; it is the empty list here. *)
Definition add_adj (m : amesh) (from to : Z) (a : adj) : res amesh :=
  _ <- check_dim2 m from ;; _ <- check_dim m to ;;
  _ <- check (zlen (adj_a2ab a) =? 0) ;;
  _ <- (if to =? 0 then check (match adj_codes a with None => true | _ => false end)
        else check (match adj_codes a with Some _ => true | None => false end)) ;;
  _ <- check_dim2 m from ;;
  _ <- check (zlen (adj_ab2b a) =? a_nents m from * element_degree (a_family m) from to) ;;
  Ok (with_adj m from to a).

(** src/Omega_h_mesh.cpp:87-95 set_ents *)
Definition set_ents (m : amesh) (d : Z) (down : adj) : res amesh :=
  _ <- check_dim m d ;;
  h <- has_ents m d ;; _ <- check (negb h) ;;
  n <- divide_no_remainder (zlen (adj_ab2b down)) (element_degree (a_family m) d (d - 1)) ;;
  add_adj (with_nents m d n) d (d - 1) down.

(** What a request does not control: memory before and interleavings of the two kernels of each
    inversion it may cause, and in which order the compiler evaluates the arguments of a call. *)
Record chance := mk_chance { c_mem : Z -> Z -> mem Z; c_first : Z -> Z -> list nat; c_second : Z -> Z -> list nat; c_swap : Z -> Z -> bool }.

(** [Ok None]: one of the kernels has not finished *)
Definition bindo {A B} (m : res (option A)) (f : A -> res (option B)) : res (option B) :=
  o <- m ;; match o with Some a => f a | None => Ok None end.
Notation "x <~ m ;; f" := (bindo m (fun x => f)) (at level 61, m at next level, right associativity).
Definition answer := res (option (amesh * adj)).

(** both arguments of a call are requests *)
Definition ask_both (ask : amesh -> Z -> Z -> answer) (swap : bool) (m : amesh) (p q : Z * Z) : res (option (amesh * adj * adj)) :=
  if swap then
    r <~ ask m (fst q) (snd q) ;; s <~ ask (fst r) (fst p) (snd p) ;; Ok (Some (fst s, snd s, snd r))
  else
    r <~ ask m (fst p) (snd p) ;; s <~ ask (fst r) (fst q) (snd q) ;; Ok (Some (fst s, snd r, snd s)).

(** an Adj made from a Graph (src/Omega_h_adj.hpp): no codes *)
Definition of_graph (g : graph) : adj := mk_adj (a2ab g) (ab2b g) None.
Definition to_graph (a : adj) : graph := mk_graph (adj_a2ab a) (adj_ab2b a).

(** src/Omega_h_mesh.cpp:313-345 derive_adj; [ask] is ask_adj.  mark_exposed_sides (src/Omega_h_mark.cpp:12-19)
    is an argument of elements_across_sides; it asks for the same upward adjacency as another
    argument, and is evaluated last here. *)
Definition derive_adj (ask : amesh -> Z -> Z -> answer) (c : chance) (m : amesh) (from to : Z) : answer :=
  _ <- check_dim m from ;; _ <- check_dim2 m to ;;
  let f := a_family m in let dim := a_dim m in
  if from <? to then
    r <~ ask m to from ;;
    up <~ invert_adj (snd r) (element_degree f to from) (a_nents m from) (c_mem c from to) (c_first c from to) (c_second c from to) ;;
    Ok (Some (fst r, up))
  else if to <? from then
    _ <- check (to + 1 <? from) ;;
    h2m <~ ask m from (to + 1) ;;
    m2l <~ ask (fst h2m) (to + 1) to ;;
    h2l <- transit (snd h2m) (snd m2l) f from to ;;
    Ok (Some (fst m2l, mk_adj [] (fst h2l) (snd h2l)))
  else if (from =? dim) && (to =? dim) then
    r <~ ask_both ask (c_swap c from to) m (dim, dim - 1) (dim - 1, dim) ;;
    up <~ ask (fst (fst r)) (dim - 1) dim ;;
    exposed <- mark_exposed_sides (adj_a2ab (snd up)) ;;
    g <- elements_across_sides dim (snd (fst r)) (snd r) exposed ;;
    Ok (Some (fst up, of_graph g))
  else if (from =? 0) && (to =? 0) then
    r <~ ask_both ask (c_swap c from to) m (1, 0) (0, 1) ;;
    g <- verts_across_edges (snd (fst r)) (snd r) ;;
    Ok (Some (fst (fst r), of_graph g))
  else if (from =? 1) && (to =? 1) then
    _ <- check (2 <=? dim) ;;
    r <~ ask_both ask (c_swap c from to) m (2, 1) (1, 2) ;;
    g <- edges_across_tris (snd (fst r)) (snd r) ;;
    if dim =? 3 then
      r' <~ ask_both ask (c_swap c from to) (fst (fst r)) (3, 1) (1, 3) ;;
      g' <- edges_across_tets (snd (fst r')) (snd r') ;;
      g'' <- add_edges g g' ;;
      Ok (Some (fst (fst r'), of_graph g''))
    else Ok (Some (fst (fst r), of_graph g))
  else Abort.

(** src/Omega_h_mesh.cpp:347-357 ask_adj.  [fuel] bounds the depth of the recursion; deeper than that
    counts as undefined. *)
Fixpoint ask_within (fuel : nat) (c : chance) (m : amesh) (from to : Z) : answer :=
  match fuel with
  | O => UB
  | S fuel =>
    _ <- check_dim2 m from ;; _ <- check_dim2 m to ;;
    match a_adjs m from to with
    | Some a => Ok (Some (m, a))
    | None =>
      derived <~ derive_adj (ask_within fuel c) c m from to ;;
      Ok (Some (with_adj (fst derived) from to (snd derived), snd derived))
    end
  end.
Definition ask_adj : chance -> amesh -> Z -> Z -> answer := ask_within 6.

(** src/Omega_h_mesh.cpp:242-270 ask_down, ask_up, ask_star, ask_dual *)
Definition ask_down (c : chance) (m : amesh) (from to : Z) : answer := _ <- check (to <? from) ;; ask_adj c m from to.
Definition ask_up (c : chance) (m : amesh) (from to : Z) : answer := _ <- check (from <? to) ;; ask_adj c m from to.
Definition ask_star (c : chance) (m : amesh) (d : Z) : answer := _ <- check (d <? a_dim m) ;; ask_adj c m d d.
Definition ask_dual (c : chance) (m : amesh) : answer := ask_adj c m (a_dim m) (a_dim m).

(** src/Omega_h_mesh.cpp:570-582 ask_graph.  Read(n+1, 0, deg) holds 0, deg, 2 deg, ... *)
Definition ask_graph (c : chance) (m : amesh) (from to : Z) : res (option (amesh * graph)) :=
  if from <? to then
    r <~ ask_up c m from to ;; Ok (Some (fst r, to_graph (snd r)))
  else if to <? from then
    r <~ ask_down c m from to ;;
    _ <- check_dim2 (fst r) from ;;
    Ok (Some (fst r, mk_graph (map (fun i => i * element_degree (a_family m) from to) (zrange (a_nents m from + 1))) (adj_ab2b (snd r))))
  else
    _ <- check_dim2 m from ;; g <- identity_graph (a_nents m from) ;; Ok (Some (m, g)).

(** Histories *)
Inductive aevent := SetEnts (d : Z) (down : adj) | Ask (from to : Z) (c : chance).
Definition run_aevent (m : amesh) (e : aevent) : res (option amesh) :=
  match e with
  | SetEnts d down => m' <- set_ents m d down ;; Ok (Some m')
  | Ask from to c => r <~ ask_adj c m from to ;; Ok (Some (fst r))
  end.
Fixpoint run_aevents (m : amesh) (es : list aevent) : res (option amesh) :=
  match es with
  | [] => Ok (Some m)
  | e :: es => m' <~ run_aevent m e ;; run_aevents m' es
  end.
