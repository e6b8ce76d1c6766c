(** Specification for C28 and C29: which meshes can be stored, and what is read back. *)
From Verif Require Import Prelude M_Template M_Adj M_Parents M_Tags M_File.
Local Open Scope Z_scope.

(** what fits the types *)
Definition in_range (t : scalar) (v : Z) : Prop :=
  match t with I8 => -128 <= v <= 127 | I32 => -2147483648 <= v <= 2147483647
             | I64 => -9223372036854775808 <= v <= 9223372036854775807 | Real => 0 <= v <= 18446744073709551615 end.
Definition byte (b : Z) : Prop := 0 <= b <= 255.
Definition countable {A} (l : list A) : Prop := zlen l <= 2147483647.
Definition array_of (t : scalar) (a : list Z) : Prop := countable a /\ Forall (in_range t) a.
Definition name_ok (n : list Z) : Prop := countable n /\ Forall byte n.

(** zlib does its job on everything as long as the bytes of an array can be *)
Definition zlib_works (z : zlib) : Prop :=
  forall l, Forall byte l -> zlen l <= 8 * 2147483647 -> uncompress z (compress z l) (zlen l) = Some l /\ Forall byte (compress z l) /\ zlen (compress z l) <= 9223372036854775807.

(** A mesh as the functions of the API leave it, with all arrays there and within the types *)
Definition tag_ok (n : Z) (t : tag) : Prop :=
  name_ok (tag_name t) /\ tag_name t <> [] /\ 0 <= tag_ncomps t <= 127 /\
  exists s a, scalar_of_type (tag_type t) = Some s /\ tag_array t = Some a /\ array_of s a /\ zlen a = n * tag_ncomps t.
Definition down_ok (f : family) (d n : Z) (o : option adj) : Prop :=
  exists a, o = Some a /\ adj_a2ab a = [] /\ zlen (adj_ab2b a) = n * element_degree f d (d - 1) /\ array_of I32 (adj_ab2b a) /\
    if d =? 1 then adj_codes a = None else exists c, adj_codes a = Some c /\ array_of I8 c.
Definition owners_ok (n : Z) (o : option (list Z * list Z)) : Prop :=
  exists r i, o = Some (r, i) /\ zlen r = n /\ zlen i = n /\ array_of I32 r /\ array_of I32 i.
Definition parents_ok (o : option parents) : Prop := forall i c, o = Some (i, c) -> array_of I32 i /\ array_of I8 c.
Definition set_ok (s : class_set) : Prop :=
  name_ok (fst s) /\ countable (snd s) /\ Forall (fun p => in_range I32 (fst p) /\ in_range I32 (snd p)) (snd s).
(** the names of a std::map increase *)
Fixpoint increasing (l : list (list Z)) : Prop :=
  match l with a :: ((b :: _) as r) => name_ltb a b = true /\ increasing r | _ => True end.

Record storable (m : omesh) : Prop := {
  s_comm : in_range I32 (o_comm_size m) /\ in_range I32 (o_comm_rank m);
  s_parting : 0 <= o_parting m <= 2 /\ in_range I32 (o_nghost_layers m);
  s_hints : forall axes, o_hints m = Some axes -> countable axes /\ Forall (fun a => in_range Real (fst (fst a)) /\ in_range Real (snd (fst a)) /\ in_range Real (snd a)) axes;
  s_dim : 1 <= o_dim m <= 3;
  s_four : length (t_nents (o_t m)) = 4%nat /\ length (t_tags (o_t m)) = 4%nat /\ length (o_down m) = 4%nat /\ length (o_owners m) = 4%nat /\ length (o_parents m) = 4%nat;
  (* the dimensions the mesh has *)
  s_nents : forall d n, 0 <= d <= o_dim m -> zget (t_nents (o_t m)) d = Ok n -> 0 <= n <= 2147483647;
  s_down : forall d n o, 1 <= d <= o_dim m -> zget (t_nents (o_t m)) d = Ok n -> zget (o_down m) d = Ok o -> down_ok (o_family m) d n o;
  s_tags : forall d n l, 0 <= d <= o_dim m -> zget (t_nents (o_t m)) d = Ok n -> zget (t_tags (o_t m)) d = Ok l ->
    zlen l <= 127 /\ Forall (tag_ok n) l /\ NoDup (map tag_name l);
  s_owners : 1 < o_comm_size m -> forall d n o, 0 <= d <= o_dim m -> zget (t_nents (o_t m)) d = Ok n -> zget (o_owners m) d = Ok o -> owners_ok n o;
  s_parents : forall d o, 0 <= d <= o_dim m -> zget (o_parents m) d = Ok o -> parents_ok o;
  s_sets : countable (o_sets m) /\ Forall set_ok (o_sets m) /\ increasing (map fst (o_sets m));
  (* the dimensions it does not have *)
  s_vert_down : zget (o_down m) 0 = Ok None;
  s_above : forall d, o_dim m < d <= 3 -> zget (t_nents (o_t m)) d = Ok (-1) /\ zget (t_tags (o_t m)) d = Ok [] /\ zget (o_down m) d = Ok None /\ zget (o_owners m) d = Ok None /\ zget (o_parents m) d = Ok None
}.

(** What reading gives back: the same mesh, but ownership only when there is more than one rank, no
    class sets without members, and, if entities of some dimension have parents, explicit orphans in the others *)
Definition some_parents (m : omesh) : bool := existsb (fun o => match o with Some _ => true | None => false end) (o_parents m).
Definition explicit_parents (m : omesh) : list (option parents) :=
  map (fun d => if d <=? o_dim m then
                  match nth (Z.to_nat d) (o_parents m) None with
                  | Some p => Some p
                  | None => let n := Z.to_nat (nth (Z.to_nat d) (t_nents (o_t m)) 0) in Some (repeat (-1) n, repeat 0 n)
                  end
                else None) [0; 1; 2; 3].
Definition as_read (m : omesh) : omesh :=
  mk_omesh (o_comm_size m) (o_comm_rank m) (o_family m) (o_parting m) (o_nghost_layers m) (o_hints m) (o_t m) (o_down m)
    (if 1 <? o_comm_size m then o_owners m else [None; None; None; None])
    (filter (fun s => match snd s with [] => false | _ => true end) (o_sets m))
    (if some_parents m then explicit_parents m else [None; None; None; None]).

(** the parents of the elements: the last things in a file of a mesh with parents *)
Definition last_parents (m : omesh) : parents := match nth (Z.to_nat (o_dim m)) (explicit_parents m) None with Some p => p | None => ([], []) end.
(** the mesh read back but with [c] for the codes of the parents of the elements *)
Definition with_last_codes (m : omesh) (c : list Z) : omesh :=
  with_parents (as_read m) (list_set (explicit_parents m) (Z.to_nat (o_dim m)) (Some (fst (last_parents m), c))).

(** [p] is what is left of [b] when its last bytes are missing *)
Definition cut_short (p b : list Z) : Prop := exists q, q <> [] /\ b = p ++ q.
