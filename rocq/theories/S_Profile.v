(** Specification vocabulary of C46, over the history of events alone.  A call path is the list of the
    names of the open calls, innermost first. *)
From Verif Require Import Prelude M_Profile.
Local Open Scope nat_scope.

Definition path := list (list Z).

(** What has happened: the calls still open with their starting times, the path of every start so far,
    and the path and duration of every finished call. *)
Record story := Story { open : list (list Z * Z); started : list path; finished : list (path * Z) }.

(** [None]: a stop with nothing open. *)
Definition tell (s : story) (e : event) : option story :=
  match e with
  | Start name now =>
      let o := (name, now) :: open s in
      Some (Story o (started s ++ [map fst o]) (finished s))
  | Stop now =>
      match open s with
      | [] => None
      | (name, t0) :: o => Some (Story o (started s) (finished s ++ [(map fst (open s), (now - t0)%Z)]))
      end
  end.
Fixpoint tell_all (s : story) (es : list event) : option story :=
  match es with
  | [] => Some s
  | e :: es => match tell s e with Some s => tell_all s es | None => None end
  end.
Definition story_of (es : list event) : option story := tell_all (Story [] [] []) es.

(** Names are C strings: no zero character. *)
Definition proper (e : event) : Prop :=
  match e with Start name _ => ~ In 0%Z name | Stop _ => True end.

Definition path_dec : forall p q : path, {p = q} + {p <> q} := list_eq_dec (list_eq_dec Z.eq_dec).
Definition times_started (s : story) (p : path) : nat := count_occ path_dec (started s) p.
Definition total (l : list Z) : Z := fold_right Z.add 0%Z l.
Definition time_spent (s : story) (p : path) : Z :=
  total (map snd (filter (fun x => if path_dec (fst x) p then true else false) (finished s))).

(** The call path of a frame, read off the history through parents and names. *)
Inductive frame_path (h : history) : option nat -> path -> Prop :=
| path_root : frame_path h None []
| path_frame i f name p : nth_error (frames h) i = Some f -> get_name h i = Ok name ->
    frame_path h (parent f) p -> frame_path h (Some i) (name :: p).

(** [p] extends [q] outwards: the innermost calls of [p] are those of [q]. *)
Definition begins (q p : path) : Prop := exists r, p = q ++ r.
Definition beginsb (q p : path) : bool := if path_dec (firstn (length q) p) q then true else false.

(** The call paths of all frames of a history, in the order of the frames. *)
Definition are_paths (h : history) (ps : list path) : Prop :=
  length ps = length (frames h) /\ forall i p, nth_error ps i = Some p -> frame_path h (Some i) p.

(** Sums over the frames whose path satisfies a test. *)
Definition sum_where (test : path -> bool) (value : path * frame -> Z) (pfs : list (path * frame)) : Z :=
  total (map value (filter (fun x => test (fst x)) pfs)).
Definition calls_value (x : path * frame) : Z := Z.of_nat (number_of_calls (snd x)).
(** The time a frame spent outside the calls made from it, if positive. *)
Definition is_outer (p q : path) : bool := match q with [] => false | _ :: q => if path_dec q p then true else false end.
Definition self_value (pfs : list (path * frame)) (x : path * frame) : Z :=
  Z.max (total_runtime (snd x) - sum_where (is_outer (fst x)) (fun y => total_runtime (snd y)) pfs)%Z 0.
