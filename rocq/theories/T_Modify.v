(** C34: new local numbers after a modification. *)
From Verif Require Import Prelude M_Array M_Modify S_Map S_Adj S_Modify P_Modify2 X_Modify.
Local Open Scope Z_scope.

(** C34 (adaptation). modify_ents_adapt succeeds and gives a good numbering when the keys are distinct
    and no new-numbered entity has two keys on its boundary: the entities without a key stay in order, the
    numbers of kept and produced entities are exactly 0..n-1, and products stand where their key's
    representative stood. *)
Theorem adapt_numbering ms ent_dim key_dim keys2kds keys2prods nprods : consistent ms -> 0 <= ent_dim <= mesh_dim ms -> 0 <= key_dim <= mesh_dim ms ->
  NoDup keys2kds -> (forall k, In k keys2kds -> 0 <= k < nents ms key_dim) ->
  is_fan keys2prods -> zlen keys2prods = zlen keys2kds + 1 -> last_of keys2prods = Ok nprods ->
  (key_dim < ent_dim -> independent ms key_dim keys2kds ent_dim /\ forall k, In k keys2kds -> exists i, zget (ask_down ms ent_dim key_dim) i = Ok k) ->
  exists r, modify_ents_adapt ms ent_dim key_dim keys2kds keys2prods = Ok r /\
    good_numbering ms ent_dim (only_at key_dim keys2kds) (only_at key_dim keys2prods) nprods (fun x => ~ touches ms key_dim keys2kds ent_dim x) r.
Proof. exact (adapt_numbering_lemma ms ent_dim key_dim keys2kds keys2prods nprods). Qed.
Print Assumptions adapt_numbering.

(** the hypotheses hold when the diagonal of the square is split: 2 triangles become 4, 5 edges 8, and
    a vertex is added right behind vertex 0 *)
Example adapt_hyps : consistent square /\ independent square 1 [2] 2 /\ is_fan [0; 4] /\ (forall k, In k [2] -> exists i, zget (ask_down square 2 1) i = Ok k).
Proof. split; [exact square_consistent|]. split; [exact diagonal_independent|]. split; [exact fan_3|]. intros k [<-|[]]. exists 2. reflexivity. Qed.
Example adapt_tris : modify_ents_adapt square 2 1 [2] [0; 4] = Ok (mk_numbering [] [] [0; 1; 2; 3] [-1; -1] 4).
Proof. vm_compute. reflexivity. Qed.
Example adapt_edges : modify_ents_adapt square 1 1 [2] [0; 4] = Ok (mk_numbering [0; 1; 3; 4] [0; 1; 6; 7] [2; 3; 4; 5] [0; 1; -1; 6; 7] 8).
Proof. vm_compute. reflexivity. Qed.
Example adapt_verts : modify_ents_adapt square 0 1 [2] [0; 1] = Ok (mk_numbering [0; 1; 2; 3] [0; 2; 3; 4] [1] [0; 2; 3; 4] 5).
Proof. vm_compute. reflexivity. Qed.

(** C34 (refinement that keeps everything, modified entities of several dimensions sharing representatives) *)
Theorem kept_numbering ms ent_dim mods2mds marks mods2prods nprods : consistent ms -> 0 <= ent_dim <= mesh_dim ms -> modified_lists ms mods2mds mods2prods nprods ->
  (forall d prods, at_ mods2prods d = Some prods -> ent_dim <= d) ->
  exists r, modify_ents ms ent_dim mods2mds marks mods2prods true = Ok r /\ good_numbering ms ent_dim mods2mds mods2prods nprods (fun _ => True) r.
Proof. exact (kept_numbering_lemma ms ent_dim mods2mds marks mods2prods nprods). Qed.
Print Assumptions kept_numbering.

Example kept_hyps : consistent square /\ modified_lists square all_mds all_prods 7 /\ (forall d prods, at_ all_prods d = Some prods -> 0 <= d).
Proof. exact (conj square_consistent (conj all_lists all_above)). Qed.
Example kept_verts : modify_ents square 0 all_mds [None; None; None; None] all_prods true =
  Ok (mk_numbering [0; 1; 2; 3] [0; 6; 8; 10] [1; 7; 2; 9; 3; 4; 5] [0; 6; 8; 10] 11).
Proof. vm_compute. reflexivity. Qed.

(** C34 (limit). Independence is needed: replacing two sides of one triangle gives the products of both
    the same numbers, without any error. *)
Theorem adapt_numbering_dependent_keys_refuted : exists ms keys2kds keys2prods, consistent ms /\ NoDup keys2kds /\ (forall k, In k keys2kds -> 0 <= k < nents ms 1) /\ is_fan keys2prods /\
  exists r, modify_ents_adapt ms 2 1 keys2kds keys2prods = Ok r /\ ~ NoDup (prods2new r).
Proof. exact (ex_intro _ square (ex_intro _ [0; 1] (ex_intro _ [0; 2; 4] shared_clash))). Qed.
Print Assumptions adapt_numbering_dependent_keys_refuted.
