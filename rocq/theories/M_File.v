(** Model of the binary mesh format: src/Omega_h_file.cpp:22-464 *)
From Verif Require Import Prelude M_Sort M_Template M_Adj M_Parents M_Tags.
Local Open Scope Z_scope.

(** A machine: byte order, and whether the library was built with zlib (OMEGA_H_USE_ZLIB) *)
Record machine := mk_machine { little_endian : bool; has_zlib : bool }.

(** The four types of array entries.  Integers are numbers, a Real is its 64-bit pattern. *)
Inductive scalar := I8 | I32 | I64 | Real.
Definition size_of (t : scalar) : nat := match t with I8 => 1 | I32 => 4 | I64 => 8 | Real => 8 end.
Definition pattern (t : scalar) (v : Z) : Z := v mod 2 ^ (8 * Z.of_nat (size_of t)).
Definition of_pattern (t : scalar) (p : Z) : Z :=
  match t with Real => p | _ => let n := 8 * Z.of_nat (size_of t) in if p <? 2 ^ (n - 1) then p else p - 2 ^ n end.
(** static_cast to an integer type *)
Definition cast (t : scalar) (v : Z) : Z := of_pattern t (pattern t v).

(** The bytes of an object in memory, in the byte order of the machine *)
Fixpoint le_bytes (n : nat) (p : Z) : list Z := match n with O => [] | S n => p mod 256 :: le_bytes n (p / 256) end.
Fixpoint le_value (l : list Z) : Z := match l with [] => 0 | b :: r => b + 256 * le_value r end.
Definition mem_bytes (little : bool) (n : nat) (p : Z) : list Z := if little then le_bytes n p else rev (le_bytes n p).
Definition mem_value (little : bool) (l : list Z) : Z := le_value (if little then l else rev l).

(** :22-26 is_little_endian_cpu looks at the first byte of 1; :366,412 needs_swapping *)
Definition is_little_endian_cpu (m : machine) : bool := match mem_bytes (little_endian m) 2 1 with b :: _ => b =? 1 | [] => false end.
Definition needs_swapping (m : machine) : bool := negb (is_little_endian_cpu m).

(** :37-47 bswap32, :49-62 bswap64 (the compilers' builtins are documented to do the same) *)
Definition bswap32 (a : Z) : Z :=
  Z.lor (Z.lor (Z.lor (Z.shiftl (Z.land a 0x000000FF) 24) (Z.shiftl (Z.land a 0x0000FF00) 8))
    (Z.shiftr (Z.land a 0x00FF0000) 8)) (Z.shiftr (Z.land a 0xFF000000) 24).
Definition bswap64 (a : Z) : Z :=
  Z.lor (Z.lor (Z.lor (Z.lor (Z.lor (Z.lor (Z.lor
    (Z.shiftl (Z.land a 0x00000000000000FF) 56) (Z.shiftl (Z.land a 0x000000000000FF00) 40))
    (Z.shiftl (Z.land a 0x0000000000FF0000) 24)) (Z.shiftl (Z.land a 0x00000000FF000000) 8))
    (Z.shiftr (Z.land a 0x000000FF00000000) 8)) (Z.shiftr (Z.land a 0x0000FF0000000000) 24))
    (Z.shiftr (Z.land a 0x00FF000000000000) 40)) (Z.shiftr (Z.land a 0xFF00000000000000) 56).
(** :64-95 SwapBytes and swap_bytes of one value *)
Definition swap_pattern (n : nat) (p : Z) : Z := match n with 4%nat => bswap32 p | 8%nat => bswap64 p | _ => p end.
Definition swap_value (t : scalar) (v : Z) : Z := of_pattern t (swap_pattern (size_of t) (pattern t v)).
(** :97-104 swap_bytes of an array *)
Definition swap_array (t : scalar) (a : list Z) (swap : bool) : list Z := if swap then map (swap_value t) a else a.
(** the bytes of an array in memory, and back *)
Definition array_bytes (m : machine) (t : scalar) (a : list Z) : list Z := flat_map (fun v => mem_bytes (little_endian m) (size_of t) (pattern t v)) a.
Fixpoint array_values (m : machine) (t : scalar) (n : nat) (l : list Z) : list Z :=
  match n with
  | O => []
  | S n => of_pattern t (mem_value (little_endian m) (firstn (size_of t) l)) :: array_values m t n (skipn (size_of t) l)
  end.

(** An input stream: the bytes to come, and whether no read has come short so far *)
Record istream := mk_istream { to_come : list Z; good : bool }.
(** std::istream::read: the bytes stored; when they are fewer than asked for, the stream is in a failed
    state and later reads store nothing *)
Definition stream_read (s : istream) (n : Z) : list Z * istream :=
  if good s then
    if n <=? zlen (to_come s) then (firstn (Z.to_nat n) (to_come s), mk_istream (skipn (Z.to_nat n) (to_come s)) true)
    else (to_come s, mk_istream [] false)
  else ([], s).
Definition reader (A : Type) := istream -> res (A * istream).
Definition ret {A} (a : A) : reader A := fun s => Ok (a, s).
Definition rbind {A B} (r : reader A) (f : A -> reader B) : reader B := fun s => p <- r s ;; f (fst p) (snd p).
Definition lift {A} (r : res A) : reader A := fun s => a <- r ;; Ok (a, s).
Notation "x <<- e ;; f" := (rbind e (fun x => f)) (at level 61, e at next level, right associativity).

(** Memory that was allocated and not filled by a short read keeps what it held before: [heap false] for the
    array itself, [heap true] for its compressed form.  (One memory for all arrays is enough: after a
    short read no further array is read, see below.) *)
Definition heap := bool -> Z -> Z.
Definition filled_up (h : Z -> Z) (got : list Z) (n : Z) : list Z := got ++ map h (zfromto (zlen got) n).

(** :106-110 write_value *)
Definition write_value (m : machine) (t : scalar) (v : Z) (swap : bool) : list Z :=
  mem_bytes (little_endian m) (size_of t) (pattern t (if swap then swap_value t v else v)).
(** :112-116 read_value: None when the variable, which nobody initialised, was not (entirely) stored to *)
Definition read_value (m : machine) (t : scalar) (swap : bool) : reader (option Z) := fun s =>
  let (got, s) := stream_read s (Z.of_nat (size_of t)) in
  if zlen got =? Z.of_nat (size_of t) then
    let v := of_pattern t (mem_value (little_endian m) got) in Ok (Some (if swap then swap_value t v else v), s)
  else Ok (None, s).
(** using the value of an uninitialised variable *)
Definition use (o : option Z) : reader Z := fun s => match o with Some v => Ok (v, s) | None => UB end.
Definition read_used (m : machine) (t : scalar) (swap : bool) : reader Z := o <<- read_value m t swap ;; use o.

(** zlib: compress2 and uncompress into a buffer of the given size.  That compress2 succeeds with a
    buffer of compressBound bytes is assumed here. *)
Record zlib := mk_zlib { compress : list Z -> list Z; uncompress : list Z -> Z -> option (list Z) }.

(** :118-148 write_array *)
Definition write_array (z : zlib) (m : machine) (t : scalar) (array : list Z) (is_compressed swap : bool) : res (list Z) :=
  let uncompressed := array_bytes m t (swap_array t array swap) in
  let size := write_value m I32 (cast I32 (zlen array)) swap in
  if has_zlib m then
    if is_compressed then
      let compressed := compress z uncompressed in
      Ok (size ++ write_value m I64 (cast I64 (zlen compressed)) swap ++ compressed)
    else Ok (size ++ uncompressed)
  else _ <- check (negb is_compressed) ;; Ok (size ++ uncompressed).
(** an array that does not exist has no size (src/Omega_h_array.hpp:50-59 dereferences a null pointer) *)
Definition write_array_opt (z : zlib) (m : machine) (t : scalar) (array : option (list Z)) (is_compressed swap : bool) : res (list Z) :=
  match array with Some a => write_array z m t a is_compressed swap | None => UB end.

(** :150-184 read_array *)
Definition read_array (z : zlib) (h : heap) (m : machine) (t : scalar) (is_compressed swap : bool) : reader (list Z) :=
  size <<- read_used m I32 swap ;;
  _ <<- lift (check (0 <=? size)) ;;
  let uncompressed_bytes := size * Z.of_nat (size_of t) in
  let plain : reader (list Z) := fun s =>
    let (got, s) := stream_read s uncompressed_bytes in Ok (filled_up (h false) got uncompressed_bytes, s) in
  let packed : reader (list Z) :=
    compressed_bytes <<- read_used m I64 swap ;;
    _ <<- lift (check (0 <=? compressed_bytes)) ;;
    fun s =>
      let (got, s) := stream_read s compressed_bytes in
      match uncompress z (filled_up (h true) got compressed_bytes) uncompressed_bytes with
      | None => Abort
      | Some u => _ <- check (zlen u =? uncompressed_bytes) ;; Ok (u, s)
      end in
  uncompressed <<- (if has_zlib m then if is_compressed then packed else plain
                    else _ <<- lift (check (negb is_compressed)) ;; plain) ;;
  ret (swap_array t (array_values m t (Z.to_nat size) uncompressed) swap).

(** :186-190 write of a string, :192-198 read of a string (resize fills with zeros) *)
Definition write_string (m : machine) (val : list Z) (swap : bool) : list Z := write_value m I32 (cast I32 (zlen val)) swap ++ val.
Definition read_string (m : machine) (swap : bool) : reader (list Z) :=
  len <<- read_used m I32 swap ;;
  _ <<- lift (check (0 <=? len)) ;;
  fun s => let (got, s) := stream_read s len in Ok (filled_up (fun _ => 0) got len, s).

(** The members of class Mesh that are stored.  Arrays indexed by dimension (nents_ and tags_ in [o_t],
    the downward adjacencies to the next dimension, owners_, parents_) are lists of four.  class_sets is a
    std::map: a list in increasing order of the names. *)
Definition class_set := (list Z * list (Z * Z))%type.
Definition axis := (Z * Z * Z)%type.
Record omesh := mk_omesh {
  o_comm_size : Z; o_comm_rank : Z; o_family : family; o_parting : Z; o_nghost_layers : Z; o_hints : option (list axis);
  o_t : tmesh; o_down : list (option adj); o_owners : list (option (list Z * list Z));
  o_sets : list class_set; o_parents : list (option parents) }.
Definition with_family (m : omesh) f := mk_omesh (o_comm_size m) (o_comm_rank m) f (o_parting m) (o_nghost_layers m) (o_hints m) (o_t m) (o_down m) (o_owners m) (o_sets m) (o_parents m).
Definition with_parting (m : omesh) p n := mk_omesh (o_comm_size m) (o_comm_rank m) (o_family m) p n (o_hints m) (o_t m) (o_down m) (o_owners m) (o_sets m) (o_parents m).
Definition with_hints (m : omesh) h := mk_omesh (o_comm_size m) (o_comm_rank m) (o_family m) (o_parting m) (o_nghost_layers m) h (o_t m) (o_down m) (o_owners m) (o_sets m) (o_parents m).
Definition with_t (m : omesh) t := mk_omesh (o_comm_size m) (o_comm_rank m) (o_family m) (o_parting m) (o_nghost_layers m) (o_hints m) t (o_down m) (o_owners m) (o_sets m) (o_parents m).
Definition with_down (m : omesh) d := mk_omesh (o_comm_size m) (o_comm_rank m) (o_family m) (o_parting m) (o_nghost_layers m) (o_hints m) (o_t m) d (o_owners m) (o_sets m) (o_parents m).
Definition with_owners (m : omesh) o := mk_omesh (o_comm_size m) (o_comm_rank m) (o_family m) (o_parting m) (o_nghost_layers m) (o_hints m) (o_t m) (o_down m) o (o_sets m) (o_parents m).
Definition with_sets (m : omesh) s := mk_omesh (o_comm_size m) (o_comm_rank m) (o_family m) (o_parting m) (o_nghost_layers m) (o_hints m) (o_t m) (o_down m) (o_owners m) s (o_parents m).
Definition with_parents (m : omesh) p := mk_omesh (o_comm_size m) (o_comm_rank m) (o_family m) (o_parting m) (o_nghost_layers m) (o_hints m) (o_t m) (o_down m) (o_owners m) (o_sets m) p.
Definition with_nents (m : omesh) (d n : Z) : res omesh := l <- zset (t_nents (o_t m)) d n ;; Ok (with_t m (mk_tmesh (t_dim (o_t m)) l (t_tags (o_t m)))).
Definition o_dim (m : omesh) : Z := t_dim (o_t m).

(** src/Omega_h_mesh.cpp:26-33 a new mesh, with a communicator (set_comm) *)
Definition new_omesh (comm_size comm_rank : Z) : omesh :=
  mk_omesh comm_size comm_rank OMEGA_H_SIMPLEX (-1) (-1) None (mk_tmesh (-1) [-1; -1; -1; -1] [[]; []; []; []]) [None; None; None; None] [None; None; None; None] [] [None; None; None; None].
(** src/Omega_h_mesh.cpp:78-83 set_dim *)
Definition o_set_dim (m : omesh) (d : Z) : res omesh :=
  _ <- check (o_dim m =? -1) ;; _ <- check (1 <=? d) ;; _ <- check (d <=? 3) ;;
  Ok (with_t m (mk_tmesh d (t_nents (o_t m)) (t_tags (o_t m)))).
(** src/Omega_h_mesh.cpp:87-95 set_ents and 291-311 add_adj for the adjacency to the next dimension *)
Definition o_set_ents (m : omesh) (d : Z) (down : adj) : res omesh :=
  _ <- check_dim (o_t m) d ;; h <- has_ents (o_t m) d ;; _ <- check (negb h) ;;
  n <- divide_no_remainder (zlen (adj_ab2b down)) (element_degree (o_family m) d (d - 1)) ;;
  m <- with_nents m d n ;;
  _ <- check_dim2 (o_t m) d ;; _ <- check_dim (o_t m) (d - 1) ;;
  _ <- check (zlen (adj_a2ab down) =? 0) ;;
  _ <- (if d - 1 =? 0 then check (match adj_codes down with None => true | _ => false end)
        else check (match adj_codes down with Some _ => true | None => false end)) ;;
  n <- nents (o_t m) d ;;
  _ <- check (zlen (adj_ab2b down) =? n * element_degree (o_family m) d (d - 1)) ;;
  l <- zset (o_down m) d (Some down) ;; Ok (with_down m l).
(** src/Omega_h_mesh.cpp:448-454 set_owners *)
Definition o_set_owners (m : omesh) (d : Z) (owners : list Z * list Z) : res omesh :=
  _ <- check_dim2 (o_t m) d ;; n <- nents (o_t m) d ;;
  _ <- check (n =? zlen (fst owners)) ;; _ <- check (n =? zlen (snd owners)) ;;
  l <- zset (o_owners m) d (Some owners) ;; Ok (with_owners m l).
(** src/Omega_h_mesh.cpp:97-100 set_parents *)
Definition o_set_parents (m : omesh) (d : Z) (p : parents) : res omesh :=
  _ <- check_dim2 (o_t m) d ;; l <- zset (o_parents m) d (Some p) ;; Ok (with_parents m l).
(** src/Omega_h_mesh.cpp:417-426 ask_parents: what it returns; that it also stores it in the mesh being
    written does not matter here *)
Definition o_ask_parents (m : omesh) (d : Z) : res parents :=
  _ <- check_dim2 (o_t m) d ;; o <- zget (o_parents m) d ;;
  match o with
  | Some p => Ok p
  | None => n <- nents (o_t m) d ;; Ok (repeat (-1) (Z.to_nat n), repeat 0 (Z.to_nat n))
  end.
(** src/Omega_h_mesh.cpp:438-446 has_any_parents *)
Definition has_any_parents (m : omesh) : res bool :=
  l <- mapM (fun d => zget (o_parents m) d) (zfromto 0 (o_dim m + 1)) ;;
  Ok (existsb (fun o => match o with Some _ => true | None => false end) l).
(** src/Omega_h_mesh.cpp:456-463 ask_owners, on more than one rank *)
Definition o_ask_owners (m : omesh) (d : Z) : res (list Z * list Z) :=
  o <- zget (o_owners m) d ;; match o with Some r => Ok r | None => Abort end.
(** src/Omega_h_mesh.cpp:242-246,354-357 ask_down to the next dimension: set_ents has stored it; the code
    that would derive it is in M_MeshAdj and refuses this pair *)
Definition o_ask_down (m : omesh) (d : Z) : res adj :=
  _ <- check_dim2 (o_t m) d ;; _ <- check_dim2 (o_t m) (d - 1) ;; o <- zget (o_down m) d ;; match o with Some a => Ok a | None => Abort end.

(** src/Omega_h_defines.hpp:39-43,69 the numbers of partings and families *)
Definition OMEGA_H_ELEM_BASED := 0.
Definition OMEGA_H_GHOSTED := 1.
Definition OMEGA_H_VERT_BASED := 2.
Definition family_number (f : family) : Z := match f with OMEGA_H_SIMPLEX => 0 | OMEGA_H_HYPERCUBE => 1 end.
(** a number outside the range of the enumeration has no meaning *)
Definition family_of_number (n : Z) : res family := if n =? 0 then Ok OMEGA_H_SIMPLEX else if n =? 1 then Ok OMEGA_H_HYPERCUBE else UB.

(** :200-224 write_meta; src/Omega_h_mesh.cpp:480-483 parting *)
Definition write_meta (m : machine) (mesh : omesh) (swap : bool) : res (list Z) :=
  dim <- mdim (o_t mesh) ;;
  _ <- check (negb (o_parting mesh =? -1)) ;;
  Ok (write_value m I8 (cast I8 (family_number (o_family mesh))) swap ++
      write_value m I8 (cast I8 dim) swap ++
      write_value m I32 (o_comm_size mesh) swap ++
      write_value m I32 (o_comm_rank mesh) swap ++
      write_value m I8 (o_parting mesh) swap ++
      write_value m I32 (o_nghost_layers mesh) swap ++
      match o_hints mesh with
      | None => write_value m I8 0 swap
      | Some axes =>
        write_value m I8 1 swap ++ write_value m I32 (cast I32 (zlen axes)) swap ++
        flat_map (fun a : axis => write_value m Real (fst (fst a)) swap ++ write_value m Real (snd (fst a)) swap ++ write_value m Real (snd a) swap) axes
      end).

(** a loop of [n] rounds that appends what each round reads *)
Fixpoint read_n {A} (n : nat) (r : reader A) : reader (list A) :=
  match n with O => ret [] | S n => a <<- r ;; l <<- read_n n r ;; ret (a :: l) end.
(** a loop that changes a state *)
Fixpoint loop_n {A} (n : nat) (r : A -> reader A) (a : A) : reader A :=
  match n with O => ret a | S n => a <<- r a ;; loop_n n r a end.
Fixpoint loop_over {A B} (l : list B) (r : A -> B -> reader A) (a : A) : reader A :=
  match l with [] => ret a | b :: l => a <<- r a b ;; loop_over l r a end.

(** :226-271 read_meta.  set_parting (src/Omega_h_mesh.cpp:487-532) on a new mesh just stores; before
    version 3 the number of layers follows from the parting. *)
Definition read_meta (m : machine) (mesh : omesh) (version : Z) (swap : bool) : reader omesh :=
  mesh <<- (if 7 <=? version then f <<- read_used m I8 swap ;; f <<- lift (family_of_number f) ;; ret (with_family mesh f) else ret mesh) ;;
  dim <<- read_used m I8 swap ;;
  mesh <<- lift (o_set_dim mesh dim) ;;
  comm_size <<- read_used m I32 swap ;; _ <<- lift (check (o_comm_size mesh =? comm_size)) ;;
  comm_rank <<- read_used m I32 swap ;; _ <<- lift (check (o_comm_rank mesh =? comm_rank)) ;;
  parting <<- read_used m I8 swap ;;
  _ <<- lift (check ((parting =? OMEGA_H_ELEM_BASED) || (parting =? OMEGA_H_GHOSTED) || (parting =? OMEGA_H_VERT_BASED))) ;;
  mesh <<- (if 3 <=? version then n <<- read_used m I32 swap ;; ret (with_parting mesh parting n)
            else ret (with_parting mesh parting (if parting =? OMEGA_H_ELEM_BASED then 0 else 1))) ;;
  have_hints <<- read_used m I8 swap ;;
  mesh <<- (if have_hints =? 0 then ret mesh
            else naxes <<- read_used m I32 swap ;;
                 axes <<- read_n (Z.to_nat naxes) (x <<- read_used m Real swap ;; y <<- read_used m Real swap ;; z <<- read_used m Real swap ;; ret (x, y, z)) ;;
                 ret (with_hints mesh (Some axes))) ;;
  if version <? 6 then _ <<- read_value m I8 swap ;; ret mesh else ret mesh.

(** src/Omega_h_tag.cpp:10-19: the type number says which Tag<T> it is *)
Definition scalar_of_type (type : Z) : option scalar :=
  if type =? OMEGA_H_I8 then Some I8 else if type =? OMEGA_H_I32 then Some I32 else if type =? OMEGA_H_I64 then Some I64 else if type =? OMEGA_H_F64 then Some Real else None.

(** :273-292 write_tag *)
Definition write_tag (z : zlib) (m : machine) (t : tag) (is_compressed swap : bool) : res (list Z) :=
  a <- match scalar_of_type (tag_type t) with Some s => write_array_opt z m s (tag_array t) is_compressed swap | None => Abort end ;;
  Ok (write_string m (tag_name t) swap ++ write_value m I8 (cast I8 (tag_ncomps t)) swap ++ write_value m I8 (tag_type t) swap ++ a).
(** :294-329 read_tag *)
Definition read_tag (z : zlib) (h : heap) (m : machine) (mesh : omesh) (d : Z) (is_compressed : bool) (version : Z) (swap : bool) : reader omesh :=
  name <<- read_string m swap ;;
  ncomps <<- read_used m I8 swap ;;
  type <<- read_used m I8 swap ;;
  _ <<- (if version <? 5 then _ <<- read_value m I8 swap ;; if 2 <=? version then _ <<- read_value m I8 swap ;; ret tt else ret tt else ret tt) ;;
  match scalar_of_type type with
  | Some s =>
    array <<- read_array z h m s is_compressed swap ;;
    t <<- lift (add_tag (o_t mesh) type d name ncomps (Some array) true) ;;
    ret (with_t mesh t)
  | None => lift Abort
  end.

(** :331-344 write_sets *)
Definition write_set (m : machine) (swap : bool) (set : class_set) : list Z :=
  write_string m (fst set) swap ++ write_value m I32 (cast I32 (zlen (snd set))) swap ++
  flat_map (fun p : Z * Z => write_value m I32 (fst p) swap ++ write_value m I32 (snd p) swap) (snd set).
Definition write_sets (m : machine) (mesh : omesh) (swap : bool) : list Z :=
  write_value m I32 (cast I32 (zlen (o_sets mesh))) swap ++ flat_map (write_set m swap) (o_sets mesh).

(** the order of std::string *)
Fixpoint name_ltb (a b : list Z) : bool :=
  match a, b with
  | _, [] => false
  | [], _ :: _ => true
  | x :: a, y :: b => (x <? y) || ((x =? y) && name_ltb a b)
  end.
(** class_sets[name].push_back(pair) *)
Fixpoint push_pair (sets : list class_set) (name : list Z) (pair : Z * Z) : list class_set :=
  match sets with
  | [] => [(name, [pair])]
  | s :: r =>
    if name_ltb name (fst s) then (name, [pair]) :: s :: r
    else if name_ltb (fst s) name then s :: push_pair r name pair
    else (fst s, snd s ++ [pair]) :: r
  end.
(** :346-361 read_sets *)
Definition read_set (m : machine) (swap : bool) (mesh : omesh) : reader omesh :=
  name <<- read_string m swap ;;
  npairs <<- read_used m I32 swap ;;
  loop_n (Z.to_nat npairs) (fun mesh =>
    dim <<- read_value m I32 swap ;; id <<- read_value m I32 swap ;;
    dim <<- use dim ;; id <<- use id ;;
    ret (with_sets mesh (push_pair (o_sets mesh) name (dim, id)))) mesh.
Definition read_sets (m : machine) (swap : bool) (mesh : omesh) : reader omesh :=
  n <<- read_used m I32 swap ;; loop_n (Z.to_nat n) (read_set m swap) mesh.

(** :88 magic, src/Omega_h_file.hpp:154 latest_version *)
Definition magic : list Z := [0xa1; 0x1a].
Definition latest_version := 9.

Definition write_down (z : zlib) (m : machine) (mesh : omesh) (is_compressed swap : bool) (d : Z) : res (list Z) :=
  down <- o_ask_down mesh d ;;
  b <- write_array z m I32 (adj_ab2b down) is_compressed swap ;;
  c <- (if 1 <? d then write_array_opt z m I8 (adj_codes down) is_compressed swap else Ok []) ;;
  Ok (b ++ c).
Definition write_dim (z : zlib) (m : machine) (mesh : omesh) (is_compressed swap : bool) (d : Z) : res (list Z) :=
  n <- ntags (o_t mesh) d ;;
  ts <- mapM (fun i => t <- get_tag_i (o_t mesh) d i ;; write_tag z m t is_compressed swap) (zrange n) ;;
  os <- (if 1 <? o_comm_size mesh then
           owners <- o_ask_owners mesh d ;;
           r <- write_array z m I32 (fst owners) is_compressed swap ;;
           i <- write_array z m I32 (snd owners) is_compressed swap ;; Ok (r ++ i)
         else Ok []) ;;
  Ok (write_value m I32 n swap ++ concat ts ++ os).
Definition write_parents (z : zlib) (m : machine) (mesh : omesh) (is_compressed swap : bool) (d : Z) : res (list Z) :=
  p <- o_ask_parents mesh d ;;
  i <- write_array z m I32 (fst p) is_compressed swap ;;
  c <- write_array z m I8 (snd p) is_compressed swap ;; Ok (i ++ c).

(** :363-407 write of a mesh to a stream: the bytes written *)
Definition write_mesh (z : zlib) (m : machine) (mesh : omesh) : res (list Z) :=
  let is_compressed := has_zlib m in
  let swap := needs_swapping m in
  meta <- write_meta m mesh swap ;;
  nverts <- nents (o_t mesh) 0 ;;
  dim <- mdim (o_t mesh) ;;
  downs <- mapM (write_down z m mesh is_compressed swap) (zfromto 1 (dim + 1)) ;;
  dims <- mapM (write_dim z m mesh is_compressed swap) (zfromto 0 (dim + 1)) ;;
  has <- has_any_parents mesh ;;
  ps <- (if (has : bool) then mapM (write_parents z m mesh is_compressed swap) (zfromto 0 (dim + 1)) else Ok []) ;;
  Ok (magic ++ write_value m I8 (if is_compressed then 1 else 0) swap ++ meta ++ write_value m I32 nverts swap ++
      concat downs ++ concat dims ++ write_sets m mesh swap ++ write_value m I8 (if has then 1 else 0) swap ++ concat ps).

Definition read_down (z : zlib) (h : heap) (m : machine) (is_compressed swap : bool) (mesh : omesh) (d : Z) : reader omesh :=
  ab2b <<- read_array z h m I32 is_compressed swap ;;
  codes <<- (if 1 <? d then c <<- read_array z h m I8 is_compressed swap ;; ret (Some c) else ret None) ;;
  lift (o_set_ents mesh d (mk_adj [] ab2b codes)).
Definition read_dim (z : zlib) (h : heap) (m : machine) (is_compressed : bool) (version : Z) (swap : bool) (mesh : omesh) (d : Z) : reader omesh :=
  ntags <<- read_used m I32 swap ;;
  mesh <<- loop_n (Z.to_nat ntags) (fun mesh => read_tag z h m mesh d is_compressed version swap) mesh ;;
  if 1 <? o_comm_size mesh then
    ranks <<- read_array z h m I32 is_compressed swap ;; idxs <<- read_array z h m I32 is_compressed swap ;;
    lift (o_set_owners mesh d (ranks, idxs))
  else ret mesh.
Definition read_parents (z : zlib) (h : heap) (m : machine) (is_compressed swap : bool) (mesh : omesh) (d : Z) : reader omesh :=
  idx <<- read_array z h m I32 is_compressed swap ;; codes <<- read_array z h m I8 is_compressed swap ;;
  lift (o_set_parents mesh d (idx, codes)).
(** the two bytes of magic_in *)
Definition read_magic : reader unit := fun s =>
  let (got, s) := stream_read s 2 in
  match got with
  | [a; b] => _ <- check (a =? 0xa1) ;; _ <- check (b =? 0x1a) ;; Ok (tt, s)
  | _ => UB
  end.

(** :409-464 read of a mesh from a stream *)
Definition read_mesh (z : zlib) (h : heap) (m : machine) (mesh : omesh) (version : Z) : reader omesh :=
  _ <<- read_magic ;;
  let swap := needs_swapping m in
  version <<- (if version =? -1 then read_used m I32 swap else ret version) ;;
  _ <<- lift (check (1 <=? version)) ;; _ <<- lift (check (version <=? latest_version)) ;;
  c <<- read_used m I8 swap ;;
  let is_compressed := negb (c =? 0) in
  _ <<- (if has_zlib m then ret tt else lift (check (negb is_compressed))) ;;
  mesh <<- read_meta m mesh version swap ;;
  nverts <<- read_used m I32 swap ;;
  mesh <<- lift (with_nents mesh 0 nverts) ;;
  dim <<- lift (mdim (o_t mesh)) ;;
  mesh <<- loop_over (zfromto 1 (dim + 1)) (read_down z h m is_compressed swap) mesh ;;
  mesh <<- loop_over (zfromto 0 (dim + 1)) (read_dim z h m is_compressed version swap) mesh ;;
  mesh <<- (if 8 <=? version then read_sets m swap mesh else ret mesh) ;;
  if 9 <=? version then
    has_parents <<- read_used m I8 swap ;;
    if has_parents =? 0 then ret mesh else loop_over (zfromto 0 (dim + 1)) (read_parents z h m is_compressed swap) mesh
  else ret mesh.
