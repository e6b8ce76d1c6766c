(** Model of src/Omega_h_future.hpp and src/Omega_h_future.cpp, in a build with MPI.  The future's
    communication is a set of requests that the network finishes one by one, in any order and at any
    time; each finished receive writes its part of the receive buffer. *)
From Verif Require Import Prelude.
Local Open Scope Z_scope.

Section Future.
Context {T : Type}.

(** src/Omega_h_future.hpp:75-80 Status *)
Inductive status := Waiting | Completed | Consumed.

(** src/Omega_h_future.hpp:82-86.  [recvbuf]: the buffer now.  [pending]: the requests not finished
    yet, each with the position and the values it will write (a send request writes nothing: []).
    [callback]: what get() applies to the buffer. *)
Record future := Future {
  recvbuf : list T;
  pending : list (Z * list T);
  callback : list T -> list T;
  status_ : status
}.

(** src/Omega_h_future.cpp:136-143, the constructor of a future with communication *)
Definition make (buf : list T) (reqs : list (Z * list T)) (cb : list T -> list T) : future :=
  Future buf reqs cb Waiting.

(** src/Omega_h_future.cpp:146-149, Future(Write) *)
Definition make_write (buf : list T) : future := Future buf [] (fun b => b) Completed.

(** src/Omega_h_future.cpp:154-159, Future(Read) *)
Definition make_read (buf : list T) : future := Future [] [] (fun _ => buf) Completed.

(** src/Omega_h_future.hpp:59-64 add_callback *)
Definition add_callback (cb : list T -> list T) (f : future) : future :=
  Future (recvbuf f) (pending f) (fun b => cb (callback f b)) (status_ f).

(** A finished receive: its values land in the buffer from its position on. *)
Fixpoint land (pos : Z) (vals buf : list T) : res (list T) :=
  match vals with
  | [] => Ok buf
  | v :: t => b <- zset buf pos v ;; land (pos + 1) t b
  end.
Definition deliver (r : Z * list T) (buf : list T) : res (list T) := land (fst r) (snd r) buf.

(** The network finishes request number [i] of the pending ones. *)
Definition network (i : nat) (f : future) : res future :=
  match nth_error (pending f) i with
  | None => Ok f
  | Some r =>
      b <- deliver r (recvbuf f) ;;
      Ok (Future b (firstn i (pending f) ++ skipn (S i) (pending f)) (callback f) (status_ f))
  end.

(** src/Omega_h_future.cpp:161-178 completed(): MPI_Testall sets [flag] to 1 iff all requests are
    finished (finished requests are MPI_REQUEST_NULL afterwards and count as finished again). *)
Definition completed (f : future) : bool * future :=
  match status_ f with
  | Waiting =>
      let flag := match pending f with [] => 1 | _ => 0 end in
      (flag =? 0, if flag =? 0 then Future (recvbuf f) (pending f) (callback f) Completed else f)
  | _ => (true, f)
  end.

(** src/Omega_h_future.cpp:180-195 get(): MPI_Waitall returns once the network has finished every
    request; the order it finishes them in is immaterial to the caller when the receives do not
    overlap, and the model takes the order of the list. *)
Definition waitall (f : future) : res (list T) :=
  foldM (fun b r => deliver r b) (pending f) (recvbuf f).

Definition get (f : future) : res (list T * future) :=
  match status_ f with
  | Completed => Ok (callback f (recvbuf f), Future (recvbuf f) (pending f) (callback f) Consumed)
  | Waiting =>
      b <- waitall f ;;
      Ok (callback f b, Future b [] (callback f) Consumed)
  | Consumed => Abort
  end.

(** What the program and the network may do to a future before get(). *)
Inductive event := Net (i : nat) | Ask | AddCb (cb : list T -> list T).
Definition happens (e : event) (f : future) : res future :=
  match e with
  | Net i => network i f
  | Ask => Ok (snd (completed f))
  | AddCb cb => Ok (add_callback cb f)
  end.
Definition history (es : list event) (f : future) : res future :=
  foldM (fun f e => happens e f) es f.

(** The callbacks added in a history, in order. *)
Fixpoint callbacks (es : list event) : list (list T -> list T) :=
  match es with
  | [] => []
  | AddCb c :: t => c :: callbacks t
  | _ :: t => callbacks t
  end.
End Future.
Arguments future T : clear implicits.
Arguments event T : clear implicits.
