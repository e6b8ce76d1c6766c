(** C81: choosing what to collapse. *)
From Coq Require Import String Permutation.
From Verif Require Import Prelude M_Par M_Adj S_Unique M_MeshAdj S_MeshAdj X_MeshAdj S_Build S_RefineMesh S_Collapse M_Choose S_Choose P_Choose3 X_RefineMesh X_Flip X_Collapse X_Choose.
Local Open Scope Z_scope.

(** For any mesh of simplices, classification, marks, lengths, qualities and further checks the choice does nothing undefined and
    does not abort. *)
Theorem choosing_is_defined : forall L Q (shorter same : L -> L -> bool) (higher : Q -> Q -> bool) c T m class_dim globals (lengths : list L) (qual : Z -> Z -> Q) checks marks, valid_topology T -> simplicial T -> mesh_of T m ->
  (forall d, 0 <= d <= t_dim T -> zlen (class_dim d) = t_nents T d) -> zlen marks = t_nents T 0 -> zlen globals = t_nents T 1 -> (forall x, In x globals -> 0 <= x) -> zlen lengths = t_nents T 1 ->
  exists o, choose_collapses shorter same higher c m class_dim globals lengths qual checks marks = Ok o.
Proof. exact (fun L Q shorter same higher c T m class_dim globals lengths qual checks marks HT HS HM HC Hm Hg Hp Hl => choose_defined T HT HS class_dim HC marks Hm shorter same higher globals lengths qual Hg Hp Hl checks m HM c). Qed.
(** If nothing is chosen then no marked vertex may go anywhere.  Otherwise the candidates are exactly the marked vertices that may
    go along some edge by classification and by all the further checks, and each candidate's rail is the best edge along which it
    may go: no other is shorter, nor as short and of higher quality. *)
Theorem choosing_is_right : forall L Q (shorter same : L -> L -> bool) (higher : Q -> Q -> bool) c T m class_dim globals (lengths : list L) (qual : Z -> Z -> Q) checks marks old o, valid_topology T -> simplicial T -> mesh_of T m ->
  (forall d, 0 <= d <= t_dim T -> zlen (class_dim d) = t_nents T d) -> zlen marks = t_nents T 0 -> zlen globals = t_nents T 1 -> (forall x, In x globals -> 0 <= x) -> zlen lengths = t_nents T 1 ->
  choose_collapses shorter same higher c m class_dim globals lengths qual checks marks = Ok (Some (old, o)) -> mesh_of T old /\
  match o with
  | None => forall v k i, ~ may_go T class_dim marks checks v k i
  | Some (cands, quals, rails) => (checks <> [] -> exists v k i, may_go T class_dim marks checks v k i) /\ chosen T class_dim marks checks globals shorter same higher lengths qual cands quals rails
  end.
Proof. exact (fun L Q shorter same higher c T m class_dim globals lengths qual checks marks old o HT HS HM HC Hm Hg Hp Hl => choose_right T HT HS class_dim HC marks Hm shorter same higher globals lengths qual Hg Hp Hl checks m HM c old o). Qed.
(** There are interleavings in which it ends. *)
Theorem choosing_can_finish : forall L Q (shorter same : L -> L -> bool) (higher : Q -> Q -> bool) T m class_dim globals (lengths : list L) (qual : Z -> Z -> Q) checks marks mem, valid_topology T -> simplicial T -> mesh_of T m ->
  (forall d, 0 <= d <= t_dim T -> zlen (class_dim d) = t_nents T d) -> zlen marks = t_nents T 0 -> zlen globals = t_nents T 1 -> (forall x, In x globals -> 0 <= x) -> zlen lengths = t_nents T 1 ->
  exists first second x, choose_collapses shorter same higher (mk_chance mem first second (fun _ _ => false)) m class_dim globals lengths qual checks marks = Ok (Some x).
Proof. exact (fun L Q shorter same higher T m class_dim globals lengths qual checks marks mem HT HS HM HC Hm Hg Hp Hl => choose_finishes T HT HS class_dim HC marks Hm shorter same higher globals lengths qual Hg Hp Hl checks m HM mem). Qed.
(** Of what is chosen any vertices can be made keys: each has one vertex onto which it goes (C79), along an edge that keeps the
    classification. *)
Theorem chosen_vertices_go : forall L Q (shorter same : L -> L -> bool) (higher : Q -> Q -> bool) T class_dim globals (lengths : list L) (qual : Z -> Z -> Q) checks marks cands quals rails keys, valid_topology T -> simplicial T ->
  chosen T class_dim marks checks globals shorter same higher lengths qual cands quals rails -> NoDup globals -> (forall v, In v keys -> zget cands v = Ok 1) ->
  forall v, In v keys -> exists w k i, goes T globals keys rails v w /\ end_of T k i v w /\ keeps_class T class_dim k v w /\ forall w', goes T globals keys rails v w' -> w' = w.
Proof. exact (fun L Q shorter same higher T class_dim globals lengths qual checks marks cands quals rails keys HT HS => choice_goes T HT HS class_dim marks shorter same higher globals lengths qual checks keys cands quals rails). Qed.
(** When they go no boundary is lost: whatever falls without shrinking is classified on the same dimension as an entity around it
    that shrinks. *)
Theorem chosen_collapses_lose_no_boundary : forall L Q (shorter same : L -> L -> bool) (higher : Q -> Q -> bool) T class_dim globals (lengths : list L) (qual : Z -> Z -> Q) checks marks cands quals rails keys, valid_topology T -> simplicial T ->
  chosen T class_dim marks checks globals shorter same higher lengths qual cands quals rails -> NoDup globals -> (forall v, In v keys -> zget cands v = Ok 1) ->
  forall d e row, 0 <= d < t_dim T -> ent_verts T d e row -> falls T globals keys rails d row -> ~ shrinks T globals keys rails row ->
  exists c crow, ent_verts T (d + 1) c crow /\ incl row crow /\ shrinks T globals keys rails crow /\ same_class class_dim d e (d + 1) c.
Proof. exact (fun L Q shorter same higher T class_dim globals lengths qual checks marks cands quals rails keys HT HS => choice_apart T HT HS class_dim marks shorter same higher globals lengths qual checks keys cands quals rails). Qed.
Print Assumptions choosing_is_defined.
Print Assumptions choosing_is_right.
Print Assumptions choosing_can_finish.
Print Assumptions chosen_vertices_go.
Print Assumptions chosen_collapses_lose_no_boundary.

Example strip_can_be_chosen_from : valid_topology strip /\ simplicial strip /\ (exists m, strip_adj = Ok (Some m) /\ mesh_of strip m) /\ compares Z.ltb Z.eqb Z.gtb /\
  ((forall d, 0 <= d <= t_dim strip -> zlen (strip_class d) = t_nents strip d) /\ zlen all_marked = t_nents strip 0 /\ zlen strip_globals = t_nents strip 1 /\ (forall x, In x strip_globals -> 0 <= x) /\ zlen strip_lengths = t_nents strip 1) /\
  may_go strip strip_class all_marked [no_check] 1 3 0.
Proof. exact (conj strip_valid (conj strip_simplicial (conj strip_mesh (conj numbers_compare (conj strip_choice_ready one_may_go))))). Qed.
(** 1 goes along edge 3 although edge 0 is shorter: along that the line between 1 and 4 would be lost; so for 4 and edges 7 and 8 *)
Example strip_choice : choose_strip [no_check] all_marked = Ok (Some (Some ([0; 1; 0; 0; 1; 0], [None; Some 30; None; None; Some 70; None], [-1; 108; -1; -1; 104; -1]))).
Proof. vm_compute. reflexivity. Qed.
Example strip_choice_checked : choose_strip [no_check; not_seven] all_marked = Ok (Some (Some ([0; 1; 0; 0; 0; 0], [None; Some 30; None; None; None; None], [-1; 108; -1; -1; -1; -1]))) /\
  choose_strip [not_seven] [1; 0; 1; 1; 1; 1] = Ok (Some None) /\ choose_strip [] [1; 0; 1; 1; 0; 1] = Ok (Some None).
Proof. vm_compute. repeat split. Qed.
Print Assumptions strip_can_be_chosen_from.
Print Assumptions strip_choice.
Print Assumptions strip_choice_checked.
