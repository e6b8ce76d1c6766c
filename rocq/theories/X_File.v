(** Concrete meshes and a zlib for C28 and C29. *)
From Verif Require Import Prelude M_Sort M_Template M_Adj M_Parents M_Tags M_File S_File.
Local Open Scope Z_scope.

(** a zlib that puts a mark in front *)
Definition x_zlib : zlib := mk_zlib (fun l => 120 :: l) (fun l n => match l with 120 :: r => if zlen r =? n then Some r else None | _ => None end).
Lemma x_zlib_works : zlib_works x_zlib.
Proof.
  intros l Hl L. cbn [x_zlib compress uncompress]. rewrite Z.eqb_refl. split; [reflexivity|]. split; [constructor; [unfold byte; lia|exact Hl]|]. rewrite zlen_cons. lia.
Qed.

Definition x_little : machine := mk_machine true false.
Definition x_big : machine := mk_machine false false.
Definition x_packed : machine := mk_machine true true.

(** two triangles, the second of three ranks, vertex coordinates, a global number that needs 40 bits,
    class sets (one of them empty) and parents of the triangles *)
Definition x_mesh : omesh :=
  mk_omesh 3 1 OMEGA_H_SIMPLEX 1 1 (Some [(4607182418800017408, 0, 13830554455654793216)])
    (mk_tmesh 2 [4; 5; 2; -1]
      [[mk_tag [99; 111] 5 2 (Some [0; 0; 4607182418800017408; 0; 4607182418800017408; 4607182418800017408; 0; 4607182418800017408])];
       [];
       [mk_tag [103] 3 1 (Some [1099511627776; -7]); mk_tag [107] 0 2 (Some [-128; 127; 0; 1])]; []])
    [None;
     Some (mk_adj [] [0; 1; 1; 2; 2; 0; 2; 3; 3; 0] None);
     Some (mk_adj [] [0; 1; 2; 2; 3; 4] (Some [0; 0; 0; 1; 0; 0])); None]
    [Some ([1; 1; 0; 2], [0; 1; 5; 3]); Some ([1; 1; 1; 2; 1], [0; 1; 2; 0; 4]); Some ([1; 2], [0; 0]); None]
    [([97], [(2, 1); (1, 7)]); ([98], []); ([98; 99], [(0, -2147483648)])]
    [None; None; Some ([3; 3], [2; 6]); None].
Ltac dims d H := assert (d = 0 \/ d = 1 \/ d = 2 \/ d = 3) as H by (cbn in *; lia).
Ltac fits := repeat (first [apply Forall_nil|apply Forall_cons]); cbn; lia.
Ltac arr := split; [unfold countable; vm_compute; discriminate|fits].
Lemma x_mesh_storable : storable x_mesh.
Proof.
  split.
  - cbn. lia.
  - cbn. lia.
  - intros axes E. injection E as <-. split; [unfold countable; vm_compute; discriminate|]. repeat constructor; cbn; lia.
  - cbn. lia.
  - cbn. repeat split.
  - intros d n Hd E. cbn in Hd. assert (d = 0 \/ d = 1 \/ d = 2) as [->|[->| ->]] by lia; cbn in E; injection E as <-; lia.
  - intros d n o Hd E Eo. cbn in Hd. assert (d = 1 \/ d = 2) as [->| ->] by lia; cbn in E, Eo; injection E as <-; injection Eo as <-.
    + eexists. split; [reflexivity|]. split; [reflexivity|]. split; [reflexivity|]. split; [arr|reflexivity].
    + eexists. split; [reflexivity|]. split; [reflexivity|]. split; [reflexivity|]. split; [arr|]. eexists. split; [reflexivity|arr].
  - intros d n l Hd E El. cbn in Hd. assert (d = 0 \/ d = 1 \/ d = 2) as [->|[->| ->]] by lia; cbn in E, El; injection E as <-; injection El as <-; (split; [vm_compute; discriminate|]; split).
    + repeat constructor; try (cbn; lia); try (unfold byte; lia); try discriminate. eexists Real, _. split; [reflexivity|]. split; [reflexivity|]. split; [arr|reflexivity].
    + repeat constructor; cbn; intuition congruence.
    + constructor.
    + constructor.
    + constructor; [|constructor; [|constructor]].
      * repeat constructor; try (cbn; lia); try (unfold byte; lia); try discriminate. eexists I64, _. split; [reflexivity|]. split; [reflexivity|]. split; [arr|reflexivity].
      * repeat constructor; try (cbn; lia); try (unfold byte; lia); try discriminate. eexists I8, _. split; [reflexivity|]. split; [reflexivity|]. split; [arr|reflexivity].
    + repeat constructor; cbn; intuition congruence.
  - intros _ d n o Hd E Eo. cbn in Hd. assert (d = 0 \/ d = 1 \/ d = 2) as [->|[->| ->]] by lia; cbn in E, Eo; injection E as <-; injection Eo as <-; eexists _, _; (split; [reflexivity|]; split; [reflexivity|]; split; [reflexivity|]; split; arr).
  - intros d o Hd Eo i c E. cbn in Hd. assert (d = 0 \/ d = 1 \/ d = 2) as [->|[->| ->]] by lia; cbn in Eo; injection Eo as <-; try discriminate. injection E as <- <-. split; arr.
  - split; [unfold countable; vm_compute; discriminate|]. split; [|cbn; repeat split].
    repeat constructor; try (unfold countable; vm_compute; discriminate); try (unfold byte; cbn; lia); cbn; lia.
  - reflexivity.
  - intros d Hd. cbn in Hd. assert (d = 3) as -> by lia. repeat split.
Qed.
(** what memory may hold *)
Definition x_heap : heap := fun _ i => (17 * i) mod 256.
Definition x_file : list Z := match write_mesh x_zlib x_little x_mesh with Ok b => b | _ => [] end.
Definition x_cut : list Z := removelast x_file.
Lemma x_cut_short : cut_short x_cut x_file.
Proof. exists [6]. split; [discriminate|]. vm_compute. reflexivity. Qed.
Lemma x_cut_read : exists c, c <> snd (last_parents x_mesh) /\
  read_mesh x_zlib x_heap x_little (new_omesh 3 1) 9 (mk_istream x_cut true) = Ok (with_last_codes x_mesh c, mk_istream [] false).
Proof. exists [2; 17]. split; [discriminate|]. vm_compute. reflexivity. Qed.
Lemma x_accepted : exists m b p h m' s, storable m /\ write_mesh x_zlib x_little m = Ok b /\ cut_short p b /\ m' <> as_read m /\
  read_mesh x_zlib h x_little (new_omesh (o_comm_size m) (o_comm_rank m)) latest_version (mk_istream p true) = Ok (m', s).
Proof.
  exists x_mesh, x_file, x_cut, x_heap. exists (with_last_codes x_mesh [2; 17]), (mk_istream [] false). split; [exact x_mesh_storable|]. split; [vm_compute; reflexivity|]. split; [exact x_cut_short|]. split; [discriminate|vm_compute; reflexivity].
Qed.
