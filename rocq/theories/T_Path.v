(** C44 path operations.  Character 47 is the separator '/', 46 is '.'. *)
From Verif Require Import Prelude M_Path P_Path.
Local Open Scope Z_scope.

(** filename() is the part after the last separator, or everything. *)
Theorem path_filename : forall p, ~ In 47 (filename p) /\ (p = filename p \/ exists d, p = d ++ 47 :: filename p).
Proof. exact filename_spec. Qed.
Print Assumptions path_filename.

Theorem path_parent_and_filename : forall p, In 47 p -> join (parent_path p) (filename p) = p.
Proof. exact parent_join. Qed.
Print Assumptions path_parent_and_filename.

(** The parent of a path without a separator is that path itself, not the empty path. *)
Theorem path_parent_of_name : forall p, ~ In 47 p -> parent_path p = p.
Proof. exact parent_of_name. Qed.
Print Assumptions path_parent_of_name.
Theorem path_parent_shorter_refuted : exists p, ~ In 47 p /\ parent_path p = p /\ p <> [].
Proof. exact parent_not_proper. Qed.
Print Assumptions path_parent_shorter_refuted.

Theorem path_join_filename : forall a b, filename (join a b) = filename b.
Proof. exact join_filename. Qed.
Print Assumptions path_join_filename.

Theorem path_join_parent : forall a b, ~ In 47 b -> parent_path (join a b) = a.
Proof. exact join_parent. Qed.
Print Assumptions path_join_parent.

(** Joining onto the empty path makes the path absolute. *)
Theorem path_join_empty : forall b, join [] b = 47 :: b.
Proof. exact join_empty. Qed.
Print Assumptions path_join_empty.

Theorem path_stem_extension : forall p, stem p ++ extension p = filename p.
Proof. exact stem_extension. Qed.
Print Assumptions path_stem_extension.

(** The extension starts at the last dot of the file name, a leading dot not counting, and "." and ".."
    have none. *)
Theorem path_extension : forall p, (extension p = [] /\ stem p = filename p /\
    (filename p = [46] \/ filename p = [46; 46] \/ ~ In 46 (tl (filename p)))) \/
  (exists e, extension p = 46 :: e /\ ~ In 46 e /\ stem p <> [] /\ filename p <> [46; 46]).
Proof. exact extension_spec. Qed.
Print Assumptions path_extension.

(* "a/.b/c.d.e" *)
Example path_example : let p := [97; 47; 46; 98; 47; 99; 46; 100; 46; 101] in
  filename p = [99; 46; 100; 46; 101] /\ parent_path p = [97; 47; 46; 98] /\ stem p = [99; 46; 100] /\ extension p = [46; 101] /\
  stem (parent_path p) = [46; 98] /\ extension (parent_path p) = [].
Proof. repeat split; reflexivity. Qed.
