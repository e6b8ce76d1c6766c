(** C45 removing a directory tree *)
From Verif Require Import Prelude M_Remove S_Remove P_Remove.
Local Open Scope nat_scope.

(** A directory tree whose symbolic links lead only to files outside it: whatever order the system lists
    the entries in, remove_all returns their number, the entry is gone from its parent, and nothing
    outside the tree has changed. *)
Theorem remove_all_removes_exactly : forall pick f dir name es d children fuel,
  let t := Node d children in
  is_tree f (fun x => ~ In x (dirs t)) d t -> NoDup (dirs t) ->
  f dir = Some (Dir es) -> assoc name es = Some d -> ~ In dir (dirs t) -> size t <= fuel ->
  exists f', remove_all pick fuel f dir name = Removed f' (size t) /\
  f' dir = Some (Dir (drop name es)) /\
  forall x, x <> dir -> ~ In x (dirs t) -> f' x = f x.
Proof. intros pick f dir name es d ch fuel. exact (remove_all_exact pick f dir name es d ch fuel). Qed.
Print Assumptions remove_all_removes_exactly.

(** Through a symbolic link to a directory elsewhere, what that directory holds is deleted too. *)
Theorem remove_all_inside_only_refuted : exists f', exists n,
  remove_all (fun _ _ => 0) 10 link_fs 0 0 = Removed f' n /\ entry link_fs 2 0 = Some 4 /\ entry f' 2 0 = None.
Proof. exact follows_links. Qed.
Print Assumptions remove_all_inside_only_refuted.

(** With a symbolic link to a file inside the tree, it depends on the listing order whether the tree is
    removed, or an error is thrown with the tree half removed. *)
Theorem remove_all_succeeds_refuted :
  (exists f' n, remove_all (fun _ _ => 1) 10 inner_fs 0 0 = Removed f' n) /\
  (exists f', forall fuel, 2 <= fuel ->
     remove_all (fun _ _ => 0) fuel inner_fs 0 0 = Threw f' /\ entry f' 0 0 = Some 1 /\ entry f' 1 0 = None).
Proof. exact inner_link_throws. Qed.
Print Assumptions remove_all_succeeds_refuted.

(** What status() reports for each kind of file, whatever its permission bits: right for regular files,
    directories and FIFOs; sockets read as regular files, block devices as directories and character
    devices as symbolic links. *)
Theorem status_file_types : forall p, (0 <= p < 4096)%Z ->
  (type_of_mode (s_ifreg + p) = Some Regular /\ type_of_mode (s_ifdir + p) = Some Directory /\
   type_of_mode (s_ififo + p) = Some Fifo /\ type_of_mode (s_ifsock + p) = Some Regular /\
   type_of_mode (s_ifblk + p) = Some Directory /\ type_of_mode (s_ifchr + p) = Some Symlink)%Z.
Proof. exact modes_spec. Qed.
Print Assumptions status_file_types.

(* directory 0 holds "5" -> directory 1 and "6" -> file 9; directory 1 holds directory 2, file 3 and a
   link to (0,"6"); directory 2 holds a FIFO *)
Definition example_fs : fs := fun i =>
  match i with
  | 0 => Some (Dir [(5, 1); (6, 9)]) | 1 => Some (Dir [(0, 2); (1, 3); (2, 4)]) | 2 => Some (Dir [(0, 5)])
  | 3 => Some (Other (s_ifreg + 420)%Z) | 4 => Some (Link 0 6) | 5 => Some (Other (s_ififo + 384)%Z)
  | 9 => Some (Other (s_ifreg + 438)%Z) | _ => None
  end.
Definition example_tree : tree := Node 1 [(0, Node 2 [(0, Leaf)]); (1, Leaf); (2, Leaf)].
Example remove_example_tree : is_tree example_fs (fun x => ~ In x (dirs example_tree)) 1 example_tree.
Proof.
  assert (R : plain example_fs 3) by (exists (s_ifreg + 420)%Z, Regular; repeat split; discriminate).
  assert (F : plain example_fs 5) by (exists (s_ififo + 384)%Z, Fifo; repeat split; discriminate).
  assert (Q : plain example_fs 9) by (exists (s_ifreg + 438)%Z, Regular; repeat split; discriminate).
  assert (N : NoDup [0; 1; 2] /\ NoDup [0]) by (split; repeat constructor; cbn; intuition discriminate).
  eapply is_node; [reflexivity|exact (proj1 N)|]. constructor; [|constructor; [|constructor; [|constructor]]]; split; try reflexivity; cbn [snd].
  - eapply is_node; [reflexivity|exact (proj2 N)|]. constructor; [|constructor]. split; [reflexivity|]. apply is_leaf, F.
  - apply is_leaf, R.
  - apply (is_link _ _ _ 0 6 9); [reflexivity|cbn; intuition discriminate|reflexivity|exact Q].
Qed.
Example remove_example : exists f', remove_all (fun _ d => d) 5 example_fs 0 5 = Removed f' 5 /\ entry f' 0 5 = None /\ entry f' 0 6 = Some 9.
Proof. eexists. split; [reflexivity|]. split; reflexivity. Qed.
