(** Model of src/Omega_h_pool.{hpp,cpp}. *)
From Verif Require Import Prelude.
Local Open Scope Z_scope.

(** Calls to underlying_malloc that returned a block, and to underlying_free, newest first. *)
Inductive uevent := UMalloc (size p : Z) | UFree (p size : Z).

(** src/Omega_h_pool.hpp:14-25 struct Pool; [hist] is what the underlying allocator has seen. *)
Record pool := { used_blocks : list (list Z); free_blocks : list (list Z); hist : list uevent }.

(** src/Omega_h_pool.cpp:17-18 Pool::Pool *)
Definition new_pool : pool := {| used_blocks := repeat [] 64; free_blocks := repeat [] 64; hist := [] |}.

(** src/Omega_h_pool.cpp:36-38 and 62-64: the least shift with (1 << shift) >= size.
    Shifting by 64 is undefined. *)
Fixpoint find_shift (fuel : nat) (shift size : Z) : res Z :=
  if 2 ^ shift <? size then
    match fuel with
    | O => UB
    | S f => find_shift f (shift + 1) size
    end
  else Ok shift.
Definition shift_for (size : Z) : res Z := find_shift 63 0 size.

(** src/Omega_h_pool.cpp:8-15 call_underlying_frees: frees list[0], list[1], ... in order; the lists
    become empty.  Returns the history. *)
Fixpoint call_underlying_frees (i : Z) (l : list (list Z)) (h : list uevent) : list uevent :=
  match l with
  | [] => h
  | bs :: r => call_underlying_frees (i + 1) r (fold_left (fun h b => UFree b (2 ^ i) :: h) bs h)
  end.
Definition cleared (l : list (list Z)) : list (list Z) := map (fun _ => []) l.

Section pool.
(** underlying_malloc: may depend on everything it has seen; None is nullptr. *)
Variable malloc : list uevent -> Z -> option Z.

(** data.pop_back(), data.back() *)
Definition back_pop (l : list Z) : option (list Z * Z) :=
  match rev l with
  | [] => None
  | x :: r => Some (rev r, x)
  end.

(** src/Omega_h_pool.cpp:34-58 allocate *)
Definition allocate (p : pool) (size : Z) : res (pool * Z) :=
  shift <- shift_for size ;;
  fl <- zget (free_blocks p) shift ;;
  ul <- zget (used_blocks p) shift ;;
  match back_pop fl with
  | Some (fl', data) =>
      u <- zset (used_blocks p) shift (ul ++ [data]) ;;
      f <- zset (free_blocks p) shift fl' ;;
      Ok ({| used_blocks := u; free_blocks := f; hist := hist p |}, data)
  | None =>
      let size_to_alloc := 2 ^ shift in
      let '(f, h, data) :=
        match malloc (hist p) size_to_alloc with
        | Some d => (free_blocks p, UMalloc size_to_alloc d :: hist p, Some d)
        | None =>
            let h := call_underlying_frees 0 (free_blocks p) (hist p) in
            match malloc h size_to_alloc with
            | Some d => (cleared (free_blocks p), UMalloc size_to_alloc d :: h, Some d)
            | None => (cleared (free_blocks p), h, None)
            end
        end in
      match data with
      | None => Abort
      | Some d =>
          u <- zset (used_blocks p) shift (ul ++ [d]) ;;
          Ok ({| used_blocks := u; free_blocks := f; hist := h |}, d)
      end
  end.

(** std::find_if + erase: without the first occurrence, None if there is none *)
Fixpoint erase_first (x : Z) (l : list Z) : option (list Z) :=
  match l with
  | [] => None
  | y :: r => if y =? x then Some r else option_map (cons y) (erase_first x r)
  end.

(** src/Omega_h_pool.cpp:60-75 deallocate *)
Definition deallocate (p : pool) (data size : Z) : res pool :=
  shift <- shift_for size ;;
  ul <- zget (used_blocks p) shift ;;
  fl <- zget (free_blocks p) shift ;;
  match erase_first data ul with
  | None => Abort
  | Some ul' =>
      f <- zset (free_blocks p) shift (fl ++ [data]) ;;
      u <- zset (used_blocks p) shift ul' ;;
      Ok {| used_blocks := u; free_blocks := f; hist := hist p |}
  end.

(** src/Omega_h_pool.cpp:20-23 Pool::~Pool: what the underlying allocator has seen at the end *)
Definition destroy (p : pool) : list uevent :=
  call_underlying_frees 0 (free_blocks p) (call_underlying_frees 0 (used_blocks p) (hist p)).

(** a client's calls *)
Inductive call := Allocate (size : Z) | Deallocate (data size : Z).
(** what the client observes, newest first *)
Inductive cevent := Got (p size : Z) | Returned (p size : Z).

Definition pool_step (s : pool * list cevent) (c : call) : res (pool * list cevent) :=
  match c with
  | Allocate size => r <- allocate (fst s) size ;; Ok (fst r, Got (snd r) size :: snd s)
  | Deallocate p size => q <- deallocate (fst s) p size ;; Ok (q, Returned p size :: snd s)
  end.
Definition pool_run (cs : list call) : res (pool * list cevent) := foldM pool_step cs (new_pool, []).
End pool.
