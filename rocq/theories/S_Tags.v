(** What a history of tag operations leaves behind. *)
From Coq Require Import String.
From Verif Require Import Prelude M_Tags.
Local Open Scope Z_scope.

Inductive tag_op :=
| Add (type d : Z) (name : list Z) (ncomps : Z) (array : option (list Z)) (internal : bool)
| Set_ (type d : Z) (name : list Z) (array : list Z) (internal : bool)
| Remove (d : Z) (name : list Z).
Definition run_op (m : tmesh) (o : tag_op) : res tmesh :=
  match o with
  | Add type d name ncomps array internal => add_tag m type d name ncomps array internal
  | Set_ type d name array internal => set_tag m type d name array internal
  | Remove d name => remove_tag m d name
  end.

(** storing (vertex, [name]) makes the derived tag ([d'], [name']) of a mesh of dimension [dim] invalid *)
Definition derived (dim : Z) (name : list Z) (d' : Z) (name' : list Z) : bool :=
  let lq := ((d' =? 1) && same_name name' (name_of "length")) || ((d' =? dim) && same_name name' (name_of "quality")) in
  if same_name name (name_of "coordinates") then lq || ((d' =? dim) && same_name name' (name_of "size"))
  else if same_name name (name_of "metric") then lq else false.

(** what the operation does to ([d], [name]) *)
Inductive effect := Stores (type : Z) (array : option (list Z)) | Wipes | Nothing.
Definition effect_of (dim : Z) (o : tag_op) (d : Z) (name : list Z) : effect :=
  match o with
  | Add type d' name' _ array internal =>
      if (d' =? d) && same_name name' name then Stores type array
      else if negb internal && (d' =? 0) && derived dim name' d name then Wipes else Nothing
  | Set_ type d' name' array internal =>
      if (d' =? d) && same_name name' name then Stores type (Some array)
      else if negb internal && (d' =? 0) && derived dim name' d name then Wipes else Nothing
  | Remove d' name' => if (d' =? d) && same_name name' name then Wipes else Nothing
  end.

(** type and array last stored; the newest operation comes first *)
Fixpoint stored (dim : Z) (newest_first : list tag_op) (d : Z) (name : list Z) : option (Z * option (list Z)) :=
  match newest_first with
  | [] => None
  | o :: older => match effect_of dim o d name with Stores type array => Some (type, array) | Wipes => None | Nothing => stored dim older d name end
  end.

(** names in the order in which they came in *)
Definition order_step (dim d : Z) (names : list (list Z)) (o : tag_op) : list (list Z) :=
  let new := match o with Add _ d' n _ _ _ | Set_ _ d' n _ _ => if (d' =? d) && negb (existsb (same_name n) names) then [n] else [] | Remove _ _ => [] end in
  filter (fun n => match effect_of dim o d n with Wipes => false | _ => true end) (names ++ new).
Definition order (dim : Z) (ops : list tag_op) (d : Z) : list (list Z) := fold_left (order_step dim d) ops [].

(** a mesh without tags *)
Definition untagged (m : tmesh) : Prop :=
  1 <= t_dim m <= 3 /\ zlen (t_nents m) = 4 /\ t_tags m = [[]; []; []; []].

(** an operation that leaves the cached quantities alone: it does not write or remove one directly, changes coordinates and metric
    only by storing them without the internal flag *)
Definition is_cache (dim d : Z) (name : list Z) : bool :=
  ((d =? 1) && same_name name (name_of "length")) || ((d =? dim) && same_name name (name_of "quality")) || ((d =? dim) && same_name name (name_of "size")).
Definition is_input (d : Z) (name : list Z) : bool := (d =? 0) && (same_name name (name_of "coordinates") || same_name name (name_of "metric")).
Definition honest (dim : Z) (o : tag_op) : bool :=
  match o with
  | Add _ d name _ _ internal | Set_ _ d name _ internal => negb (is_cache dim d name) && (negb (is_input d name) || negb internal)
  | Remove d name => negb (is_input d name)
  end.

(** histories that also ask for the cached quantities; [fl], [fq], [fs] measure lengths, qualities and sizes *)
Definition measurer := res (option (list Z)) -> option (list Z) -> res (list Z).
Inductive event := Op (o : tag_op) | AskLengths | AskQualities | AskSizes.
Definition run_event (fl fq fs : measurer) (m : tmesh) (e : event) : res tmesh :=
  match e with
  | Op o => run_op m o
  | AskLengths => '(m, _) <- ask_lengths fl m ;; Ok m
  | AskQualities => '(m, _) <- ask_qualities fq m ;; Ok m
  | AskSizes => '(m, _) <- ask_sizes fs m ;; Ok m
  end.
Definition honest_event (dim : Z) (e : event) : bool := match e with Op o => honest dim o | _ => true end.
