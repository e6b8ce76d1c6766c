(** Model of the collectives of src/Omega_h_comm.cpp.  A collective call is made by every rank of the
    communicator; it is modelled as one function from the vector of arguments (entry r is rank r's) to
    the vector of results. *)
From Verif Require Import Prelude.
Local Open Scope Z_scope.

(** MPI_Bcast of one value per rank (src/Omega_h_comm.cpp:257-265 bcast): everyone gets the root's.
    A root outside the communicator is erroneous. *)
Definition bcast {A} (xs : list A) (root : Z) : res (list A) :=
  x <- zget xs root ;;
  Ok (map (fun _ => x) xs).

(** std::string::resize: cut, or pad with NUL characters (characters are their codes). *)
Definition resize (n : Z) (s : list Z) : list Z :=
  firstn (Z.to_nat n) s ++ repeat 0 (Z.to_nat n - length s).

(** src/Omega_h_comm.cpp:267-277 bcast_string.  The length is broadcast with [bcast]'s default root 0
    (src/Omega_h_comm.hpp:75 [bcast(T& x, int root_rank = 0)]), the characters from [root].  MPI_Bcast
    moves [len] characters of the root's buffer, which is the root's resized string.  The lengths are
    assumed to fit an I32. *)
Definition bcast_string (ss : list (list Z)) (root : Z) : res (list (list Z)) :=
  lens <- bcast (map (@zlen Z) ss) 0 ;;
  resized <- mapM (fun p => Ok (resize (fst p) (snd p))) (combine lens ss) ;;
  bcast resized root.

(** src/Omega_h_comm.cpp:243-255 exscan with OMEGA_H_SUM: rank r gets the sum over the lower ranks, and
    rank 0 gets 0. *)
Fixpoint exscan_from (acc : Z) (xs : list Z) : list Z :=
  match xs with
  | [] => []
  | x :: t => acc :: exscan_from (acc + x) t
  end.
Definition exscan_sum (xs : list Z) : list Z := exscan_from 0 xs.

(** src/Omega_h_comm.cpp:201-211 allreduce with OMEGA_H_SUM of integers (exact, so any order). *)
Definition allreduce_sum (xs : list Z) : list Z := map (fun _ => fold_left Z.add xs 0) xs.
