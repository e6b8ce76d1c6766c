(** Model of the profiling history, src/Omega_h_profile.hpp:20-163 and src/Omega_h_profile.cpp:19-149.
    [invalid] is [None].  A C string is the list of its characters before the terminating 0.  Times are
    exact integers (ticks of the clock); the clock reading is an argument.  Vector sizes are unbounded. *)
From Verif Require Import Prelude.
Local Open Scope nat_scope.

(** std::vector::operator[]: out of range is undefined behaviour *)
Definition vget {A} (l : list A) (i : nat) : res A :=
  match nth_error l i with Some a => Ok a | None => UB end.
Definition vset {A} (l : list A) (i : nat) (v : A) : res (list A) :=
  if i <? length l then Ok (list_set l i v) else UB.

(** src/Omega_h_profile.hpp:20-32 Strings::save *)
Definition save (chars : list Z) (str : list Z) : list Z * nat := (chars ++ str ++ [0%Z], length chars).
(** Strings::get, read up to the terminator; reading past the end is undefined behaviour *)
Fixpoint cstr (chars : list Z) : res (list Z) :=
  match chars with
  | [] => UB
  | c :: t => if (c =? 0)%Z then Ok [] else r <- cstr t ;; Ok (c :: r)
  end.
Definition get (chars : list Z) (i : nat) : res (list Z) := cstr (skipn i chars).

(** std::strcmp(a, b) == 0 *)
Fixpoint strcmp0 (a b : list Z) : bool :=
  match a, b with
  | [], [] => true
  | x :: a, y :: b => (x =? y)%Z && strcmp0 a b
  | _, _ => false
  end.

(** src/Omega_h_profile.hpp:36-45 *)
Record frame := Frame {
  parent : option nat; first_child : option nat; last_child : option nat; next_sibling : option nat;
  name_ptr : nat; start_time : Z; total_runtime : Z; number_of_calls : nat }.
Definition set_first_child (f : frame) (x : option nat) : frame :=
  Frame (parent f) x (last_child f) (next_sibling f) (name_ptr f) (start_time f) (total_runtime f) (number_of_calls f).
Definition set_last_child (f : frame) (x : option nat) : frame :=
  Frame (parent f) (first_child f) x (next_sibling f) (name_ptr f) (start_time f) (total_runtime f) (number_of_calls f).
Definition set_next_sibling (f : frame) (x : option nat) : frame :=
  Frame (parent f) (first_child f) (last_child f) x (name_ptr f) (start_time f) (total_runtime f) (number_of_calls f).
Definition set_counts (f : frame) (start total : Z) (calls : nat) : frame :=
  Frame (parent f) (first_child f) (last_child f) (next_sibling f) (name_ptr f) start total calls.

(** src/Omega_h_profile.hpp:47-57; options of the report and the communicator are left out *)
Record history := History { frames : list frame; current_frame : option nat; last_root : option nat; names : list Z }.

(** src/Omega_h_profile.cpp:19-21 *)
Definition new_history : history := History [] None None [].

(** src/Omega_h_profile.hpp:58-60 *)
Definition get_name (h : history) (i : nat) : res (list Z) := f <- vget (frames h) i ;; get (names h) (name_ptr f).

(** The sibling loops of find_child_of and find_root.  [fuel]: a bound on the passes; running out of it
    (an endless loop) counts as undefined. *)
Fixpoint find_sibling (fuel : nat) (h : history) (ok : frame -> bool) (i : option nat) (name : list Z) : res (option nat) :=
  match i with
  | None => Ok None
  | Some i =>
      match fuel with
      | O => UB
      | S fuel =>
          f <- vget (frames h) i ;;
          s <- get_name h i ;;
          if ok f && strcmp0 s name then Ok (Some i) else find_sibling fuel h ok (next_sibling f) name
      end
  end.

(** src/Omega_h_profile.hpp:102-111 *)
Definition find_root (h : history) (name : list Z) : res (option nat) :=
  match frames h with
  | [] => Ok None
  | _ => find_sibling (length (frames h)) h (fun f => match parent f with None => true | Some _ => false end) (Some 0) name
  end.

(** src/Omega_h_profile.hpp:61-71 *)
Definition find_child_of (h : history) (p : option nat) (name : list Z) : res (option nat) :=
  match p with
  | None => find_root h name
  | Some p => f <- vget (frames h) p ;; find_sibling (length (frames h)) h (fun _ => true) (first_child f) name
  end.

(** src/Omega_h_profile.hpp:112-128 *)
Definition create_root (h : history) (name : list Z) : res (history * nat) :=
  let index := length (frames h) in
  let '(chars, ptr) := save (names h) name in
  let fs := frames h ++ [Frame None None None None ptr 0 0 0] in
  fs <- (if index =? 0 then Ok fs
         else match last_root h with
              | None => UB
              | Some r => f <- vget fs r ;; vset fs r (set_next_sibling f (Some index))
              end) ;;
  Ok (History fs (current_frame h) (Some index) chars, index).

(** src/Omega_h_profile.hpp:72-95 *)
Definition create_child_of (h : history) (p : option nat) (name : list Z) : res (history * nat) :=
  match p with
  | None => create_root h name
  | Some p =>
      let index := length (frames h) in
      let '(chars, ptr) := save (names h) name in
      let fs := frames h ++ [Frame (Some p) None None None ptr 0 0 0] in
      pf <- vget fs p ;;
      fs <- match last_child pf with
            | Some old => f <- vget fs old ;; vset fs old (set_next_sibling f (Some index))
            | None => vset fs p (set_first_child pf (Some index))
            end ;;
      pf <- vget fs p ;;
      fs <- vset fs p (set_last_child pf (Some index)) ;;
      Ok (History fs (current_frame h) (last_root h) chars, index)
  end.

(** src/Omega_h_profile.hpp:138-143 *)
Definition find_or_create_child_of (h : history) (p : option nat) (name : list Z) : res (history * nat) :=
  found <- find_child_of h p name ;;
  match found with
  | Some i => Ok (h, i)
  | None => create_child_of h p name
  end.

(** src/Omega_h_profile.hpp:144-154 push, start, with the clock reading [now] *)
Definition start (h : history) (name : list Z) (now : Z) : res history :=
  '(h, id) <- find_or_create_child_of h (current_frame h) name ;;
  f <- vget (frames h) id ;;
  fs <- vset (frames h) id (set_counts f now (total_runtime f) (S (number_of_calls f))) ;;
  Ok (History fs (Some id) (last_root h) (names h)).

(** src/Omega_h_profile.hpp:149,155-167 pop, measure_runtime, measure_total_runtime, stop *)
Definition stop (h : history) (now : Z) : res history :=
  match current_frame h with
  | None => UB
  | Some c =>
      f <- vget (frames h) c ;;
      fs <- vset (frames h) c (set_counts f (start_time f) (total_runtime f + (now - start_time f))%Z (number_of_calls f)) ;;
      Ok (History fs (parent f) (last_root h) (names h))
  end.

Inductive event := Start (name : list Z) (now : Z) | Stop (now : Z).
Definition do_event (h : history) (e : event) : res history :=
  match e with Start name now => start h name now | Stop now => stop h now end.

(** src/Omega_h_profile.cpp:31-35 *)
Definition first (h : history) (p : option nat) : res (option nat) :=
  match p with
  | Some p => f <- vget (frames h) p ;; Ok (first_child f)
  | None => match frames h with [] => Ok None | _ => Ok (Some 0) end
  end.
(** src/Omega_h_profile.cpp:37-43 *)
Definition next (h : history) (i : nat) : res (option nat) := f <- vget (frames h) i ;; Ok (next_sibling f).
Definition parent_of (h : history) (i : nat) : res (option nat) := f <- vget (frames h) i ;; Ok (parent f).

(** src/Omega_h_profile.cpp:54-59, the climb *)
Fixpoint climb (fuel : nat) (h : history) (i : option nat) : res (option nat) :=
  match i with
  | None => Ok None
  | Some i =>
      match fuel with
      | O => UB
      | S fuel =>
          n <- next h i ;;
          match n with
          | Some j => Ok (Some j)
          | None => p <- parent_of h i ;; climb fuel h p
          end
      end
  end.
(** src/Omega_h_profile.cpp:45-61 *)
Definition pre_order_next (h : history) (i : nat) : res (option nat) :=
  c <- first h (Some i) ;;
  match c with
  | Some c => Ok (Some c)
  | None =>
      n <- next h i ;;
      match n with
      | Some j => Ok (Some j)
      | None => climb (length (frames h)) h (Some i)
      end
  end.

(** src/Omega_h_profile.cpp:71-93 the range-for over a history: the frames visited, in order *)
Fixpoint visit (fuel : nat) (h : history) (i : option nat) : res (list nat) :=
  match i with
  | None => Ok []
  | Some i =>
      match fuel with
      | O => UB
      | S fuel => n <- pre_order_next h i ;; r <- visit fuel h n ;; Ok (i :: r)
      end
  end.
Definition walk (h : history) : res (list nat) :=
  visit (length (frames h)) h (match frames h with [] => None | _ => Some 0 end).

(** src/Omega_h_profile.cpp:95-106 *)
Definition compute_depths (h : history) : res (list nat) :=
  order <- walk h ;;
  foldM (fun depths i =>
    p <- parent_of h i ;;
    match p with
    | Some p => d <- vget depths p ;; vset depths i (S d)
    | None => vset depths i 0
    end) order (repeat 0 (length (frames h))).

(** The frames of a sibling chain from [i] on (src/Omega_h_profile.cpp:126-128,135-138) *)
Fixpoint chain (fuel : nat) (h : history) (i : option nat) : res (list nat) :=
  match i with
  | None => Ok []
  | Some i =>
      match fuel with
      | O => UB
      | S fuel => n <- next h i ;; r <- chain fuel h n ;; Ok (i :: r)
      end
  end.
Definition children_of (h : history) (p : option nat) : res (list nat) :=
  c <- first h p ;; chain (length (frames h)) h c.

Definition time (h : history) (i : nat) : res Z := f <- vget (frames h) i ;; Ok (total_runtime f).
Definition calls (h : history) (i : nat) : res nat := f <- vget (frames h) i ;; Ok (number_of_calls f).

(** src/Omega_h_profile.cpp:142-147 the climb of one node into the inverted history *)
Fixpoint invert_climb (fuel : nat) (h inv : history) (inv_node node : option nat) (self_time : Z) (n : nat) : res history :=
  match node with
  | None => Ok inv
  | Some node =>
      match fuel with
      | O => UB
      | S fuel =>
          name <- get_name h node ;;
          '(inv, i) <- find_or_create_child_of inv inv_node name ;;
          f <- vget (frames inv) i ;;
          fs <- vset (frames inv) i (set_counts f (start_time f) (total_runtime f + self_time)%Z (number_of_calls f + n)) ;;
          p <- parent_of h node ;;
          invert_climb fuel h (History fs (current_frame inv) (last_root inv) (names inv)) (Some i) p self_time n
      end
  end.
(** src/Omega_h_profile.cpp:129-148 the queue *)
Fixpoint invert_queue (fuel : nat) (h inv : history) (q : list nat) : res history :=
  match q with
  | [] => Ok inv
  | node :: q =>
      match fuel with
      | O => UB
      | S fuel =>
          t <- time h node ;;
          n <- calls h node ;;
          ch <- children_of h (Some node) ;;
          ts <- mapM (time h) ch ;;
          let self_time := Z.max (fold_left Z.sub ts t) 0 in
          inv <- invert_climb (length (frames h)) h inv None (Some node) self_time n ;;
          invert_queue fuel h inv (q ++ ch)
      end
  end.
(** src/Omega_h_profile.cpp:123-149; the copy constructor leaves current_frame and last_root
    uninitialised ([junk]) *)
Definition invert (junk : option nat) (h : history) : res history :=
  q <- children_of h None ;;
  invert_queue (length (frames h)) h (History [] junk junk []) q.
