(** Collapsing edges: rails, marks and new numbers. *)
From Coq Require Import String Permutation Sorted.
From Verif Require Import Prelude M_Array P_Array M_Par M_Scan P_Fan S_Sort M_Sort M_Map S_Map P_Map P_Map2 M_Template S_Template P_Template M_Align S_Align P_Align M_Graph S_Graph P_Graph M_Unique S_Unique P_Unique M_Adj S_Adj P_Adj S_Transit P_Transit S_Across P_Across
  M_Match S_Match P_Match M_Tags M_MeshAdj S_MeshAdj P_MeshAdj P_MeshAdj2 P_MeshAdj3 M_Build S_Build P_Build P_Box S_Unmap P_Unmap P_Mark M_Coarsen S_Coarsen P_Dead P_Coarsen
  M_Modify S_Modify P_Modify P_Modify2 S_Swap3d M_RefineMesh S_RefineMesh S_Rebuild P_Rebuild P_Rebuild2 P_Rebuild3 P_RefineMesh1 P_RefineMesh2 P_RefineMesh4 P_RefineMesh5 P_Flip4 S_Patch P_Patch M_Collapse S_Collapse P_Collapse1 P_Collapse2 P_Collapse3.
Local Open Scope Z_scope.

Section found.
Context (T : topology) (HT : valid_topology T) (HS : simplicial T) (old : amesh) (HR : ready T old).
Context (HA : forall a b, 0 <= a <= t_dim T -> 0 <= b <= t_dim T -> a <> b -> P_MeshAdj.val T a b = Ok (kept_adj old a b)).
Local Notation D := (t_dim T).
Local Notation F := (t_family T).
Context (globals keys rails : list Z) (HC : collapsible T globals keys rails).
Local Notation goes := (goes T globals keys rails).
Local Notation shrinks := (shrinks T globals keys rails).
Local Notation falls := (falls T globals keys rails).
Local Notation keyless := (keyless keys).
Local Notation v2e := (kept_adj old 0 1).
Definition rail_find (codes : list Z) (v : Z) : res (Z * Z) :=
  rail_global <- zget rails v ;; lo <- zget (adj_a2ab v2e) v ;; hi <- zget (adj_a2ab v2e) (v + 1) ;; find_rail (adj_ab2b v2e) codes globals rail_global (zfromto lo hi).
Definition rail (v : Z) : Z * Z := match adj_codes v2e with Some codes => match rail_find codes v with Ok p => p | _ => (0, 0) end | None => (0, 0) end.
Definition onto (v : Z) : Z := look (t_verts T 1) (fst (rail v) * 2 + (1 - snd (rail v))).
Lemma rail_ok v codes : adj_codes v2e = Some codes -> In v keys -> rail_find codes v = Ok (rail v) /\ (snd (rail v) = 0 \/ snd (rail v) = 1) /\ 0 <= fst (rail v) < t_nents T 1 /\ zget (t_verts T 1) (fst (rail v) * 2 + snd (rail v)) = Ok v /\ zget (t_verts T 1) (fst (rail v) * 2 + (1 - snd (rail v))) = Ok (onto v) /\ goes v (onto v).
Proof.
  intros Ec I. destruct (rail_of T HT HS old HA globals keys rails HC v codes Ec I) as (g & lo & hi & e & dir & w & E1 & E2 & E3 & E4 & H1 & H2 & H3 & H4 & H5). assert (rail_find codes v = Ok (e, dir)) as ER by (unfold rail_find; rewrite E1; cbn [bind]; rewrite E2; cbn [bind]; rewrite E3; exact E4).
  assert (rail v = (e, dir)) as E by (unfold rail; rewrite Ec, ER; reflexivity). unfold onto. rewrite E. cbn [fst snd]. unfold look. rewrite H4. auto 10.
Qed.
Lemma codes_at : exists codes, adj_codes v2e = Some codes.
Proof. pose proof (v_dim T HT). destruct (verts_up T HT HS old HA 1 ltac:(lia)) as (_ & codes & E & _). eauto. Qed.
Lemma on_ok v : In v keys -> goes v (onto v).
Proof. intros I. destruct codes_at as (codes & E). apply (rail_ok v codes E I). Qed.
Local Notation rs := (map fst (map rail keys)).
Local Notation dirs := (map snd (map rail keys)).
Lemma rails_found : find_rails v2e globals keys rails = Ok (rs, dirs).
Proof.
  destruct codes_at as (codes & E). unfold find_rails. rewrite E. cbn [bind]. pose proof (map_tabulate keys (rail_find codes) rail) as MT. unfold rail_find in MT. rewrite MT; [reflexivity|]. intros x I. apply (rail_ok x codes E I).
Qed.
Lemma edges_len : zlen (t_verts T 1) = t_nents T 1 * 2.
Proof. pose proof (v_dim T HT). destruct (v_verts T HT 1 ltac:(lia)) as (L & _). rewrite (deg0 T HS 1) in L by lia. exact L. Qed.
Lemma rails_fine : rails_ok (counts T 1) (t_verts T 1) rs dirs.
Proof.
  pose proof (v_dim T HT). destruct codes_at as (codes & E). rewrite (counts_in T old HA 1) by lia. split; [apply edges_len|]. split; [rewrite !zlen_map; reflexivity|]. split; intros x I; rewrite map_map in I; apply in_map_iff in I as (v & <- & I); apply (rail_ok v codes E I).
Qed.
Lemma collapses_goes v w : collapses (t_verts T 1) rs dirs v w <-> goes v w.
Proof.
  destruct codes_at as (codes & E). split.
  - intros (i & e & dir & E1 & E2 & _ & E3 & E4). rewrite !zget_map in E1, E2. destruct (zget keys i) as [x| |] eqn:Ex; try discriminate. cbn [bind] in E1, E2. injection E1 as <-. injection E2 as <-. destruct (rail_ok x codes E (zget_In _ _ _ Ex)) as (_ & _ & _ & A & B & G). assert (x = v) as <- by congruence. assert (onto x = w) as <- by congruence. exact G.
  - intros G. destruct (rail_ok v codes E (proj1 G)) as (_ & A & _ & B & C & G'). pose proof (goes_fun T HT HS globals keys rails HC v w _ G G') as ->. destruct (P_Map.In_zget _ _ (proj1 G)) as (i & Ei). exists i, (fst (rail v)), (snd (rail v)). rewrite !zget_map, Ei. cbn [bind]. auto 10.
Qed.
Lemma ontos_found : get_verts_onto (adj_ab2b (kept_adj old 1 0)) rs dirs = Ok (map onto keys).
Proof.
  pose proof (v_dim T HT). rewrite (old_verts T HT old HA 1) by lia. destruct (get_verts_onto_ok _ _ _ _ rails_fine) as (ontos & E & L & G). rewrite E. f_equal. destruct codes_at as (codes & Ec). rewrite !zlen_map in L. apply list_eq_zget; [rewrite zlen_map; exact L|]. intros i Hi. destruct (zget_in_range keys i ltac:(lia)) as (v & Ev). rewrite zget_map, Ev. cbn [bind]. rewrite (G i (fst (rail v)) (snd (rail v))) by (rewrite !zget_map, Ev; reflexivity). apply (rail_ok v codes Ec (zget_In _ _ _ Ev)).
Qed.
(** an edge is a rail when it shrinks *)
Lemma rail_shrinks x : In x rs <-> exists row, ent_verts T 1 x row /\ shrinks row.
Proof.
  pose proof (v_dim T HT) as HD. destruct codes_at as (codes & Ec). split.
  - intros I. rewrite map_map in I. apply in_map_iff in I as (v & <- & I). destruct (rail_ok v codes Ec I) as (_ & A & Re & B & C & G). destruct (ent_row T HT HS 1 _ ltac:(lia) Re) as (row & R). exists row. split; [exact R|]. exists v, (onto v). split; [exact G|]. destruct (edge_row T HT HS _ row R) as (a & b & -> & N). destruct (row_ends T old HA _ a b R) as [E0 E1]. destruct A as [A|A]; rewrite A in B, C; cbn [Z.sub Z.add Z.opp Z.pos_sub] in B, C; assert (v = a \/ v = b) as Hv by (clear - B E0 E1; (left; congruence) || (right; congruence)); assert (onto v = a \/ onto v = b) as Hw by (clear - C E0 E1; (left; congruence) || (right; congruence)); cbn; intuition auto.
  - intros (row & R & v & w & G & Iv & Iw). destruct (edge_row T HT HS x row R) as (a & b & -> & N). destruct (goes_facts T HT HS globals keys rails HC v w G) as (Nvw & _). destruct (rail_ok v codes Ec (proj1 G)) as (_ & A & Re & B & C & G'). pose proof (goes_fun T HT HS globals keys rails HC v w _ G G') as ->. destruct (ent_row T HT HS 1 _ ltac:(lia) Re) as (row' & R'). destruct (edge_row T HT HS _ row' R') as (a' & b' & -> & N'). destruct (row_ends T old HA _ a' b' R') as [E0 E1].
    assert (fst (rail v) = x) as <-; [|rewrite map_map; apply in_map_iff; exists v; split; [reflexivity|exact (proj1 G)]]. apply (P_RefineMesh1.once T HS 1 _ _ _ _ ltac:(lia) R' R).
    assert (Permutation [a; b] [v; onto v]) as P1. { cbn in Iv, Iw. destruct Iv as [<-|[<-|[]]], Iw as [E|[E|[]]]; try congruence; subst; [reflexivity|apply perm_swap]. }
    assert (Permutation [a'; b'] [v; onto v]) as P2. { destruct A as [A|A]; rewrite A in B, C; cbn [Z.sub Z.add Z.opp Z.pos_sub] in B, C; [assert (v = a') by congruence; assert (onto v = b') by congruence; subst a' b'; reflexivity|assert (v = b') by congruence; assert (onto v = a') by congruence; subst a' b'; apply perm_swap]. }
    exact (Permutation_trans P2 (Permutation_sym P1)).
Qed.
Local Notation downs := (fun d => adj_ab2b (kept_adj old d (d - 1))).
Lemma dead_falls d x : 1 <= d <= D -> dead_spec D (counts T) (t_verts T) downs rs dirs d x <-> exists row, ent_verts T d x row /\ falls d row.
Proof.
  intros Hd. pose proof (v_dim T HT) as HD. assert ((if d =? 1 then In x rs else 0 <= x < counts T d /\ spans d (t_verts T d) (t_verts T 1) rs dirs x) <-> exists row, ent_verts T d x row /\ shrinks row) as H1.
  { destruct (Z.eqb_spec d 1) as [->|Nd]; [apply rail_shrinks|]. rewrite (counts_in T old HA d) by lia. split.
    - intros (Hx & v & w & G & A & B). apply collapses_goes in G. apply (has_row T HT HS old HA d x _ Hd) in A as (row & R & A). apply (has_row T HT HS old HA d x _ Hd) in B as (row' & R' & B). pose proof (ent_unique T d x _ _ ltac:(lia) R R') as <-. exists row. split; [exact R|]. exists v, w. auto.
    - intros (row & R & v & w & G & A & B). split; [apply (ent_range T HT HS d x row ltac:(lia) R)|]. exists v, w. split; [apply collapses_goes, G|]. split; apply (has_row T HT HS old HA d x _ Hd); eauto. }
  unfold dead_spec. rewrite H1. split.
  - intros [(row & R & v & w & G & A & B)|(Hlt & c & v & w & Hc & G & A & B & S & N)].
    + exists row. split; [exact R|]. exists v, w. auto.
    + rewrite (counts_in T old HA (d + 1)) in Hc by lia. apply collapses_goes in G. apply (has_row T HT HS old HA (d + 1) c _ ltac:(lia)) in A as (row & R & A). apply (has_row T HT HS old HA (d + 1) c _ ltac:(lia)) in B as (row' & R' & B). pose proof (ent_unique T (d + 1) c _ _ ltac:(lia) R R') as <-. apply (side_iff T HT HS old HA (d + 1) c row x ltac:(lia) R) in S as (y & srow & Iy & Rs & P). replace (d + 1 - 1) with d in * by lia.
      destruct (ent_facts T HT HS (d + 1) c row ltac:(lia) R) as (Nr & _). exists srow. split; [exact Rs|]. destruct (goes_facts T HT HS globals keys rails HC v w G) as (Nvw & _). assert (y = w) as ->. { destruct (Z.eq_dec y w) as [|Ny]; [assumption|]. exfalso. apply N, (has_row T HT HS old HA d x _ Hd). exists srow. split; [exact Rs|]. apply (Permutation_in _ (Permutation_sym P)), rm_in. split; [exact B|auto]. }
      exists v, w. split; [exact G|]. split; [apply (Permutation_in _ (Permutation_sym P)), rm_in; auto|]. right. split; [exact Hlt|]. exists c, row. split; [exact R|]. split; [|exact B]. intros z Iz. apply (Permutation_in _ P), rm_in in Iz. apply Iz.
  - intros (row & R & v & w & G & A & [B|(Hlt & c & row' & R' & Inc & B)]); [left; exists row; split; [exact R|]; exists v, w; auto|]. destruct (in_dec Z.eq_dec w row) as [B'|B']; [left; exists row; split; [exact R|]; exists v, w; auto|]. right. split; [exact Hlt|].
    destruct (ent_facts T HT HS (d + 1) c row' ltac:(lia) R') as (Nr' & Lr' & _). destruct (ent_facts T HT HS d x row ltac:(lia) R) as (Nr & Lr & _). exists c, v, w. rewrite (counts_in T old HA (d + 1)) by lia. split; [apply (ent_range T HT HS (d + 1) c row' ltac:(lia) R')|]. split; [apply collapses_goes, G|]. split; [apply (has_row T HT HS old HA (d + 1) c _ ltac:(lia)); eauto|]. split; [apply (has_row T HT HS old HA (d + 1) c _ ltac:(lia)); eauto|]. split.
    + apply (side_iff T HT HS old HA (d + 1) c row' x ltac:(lia) R'). replace (d + 1 - 1) with d by lia. exists w, row. split; [exact B|]. split; [exact R|]. apply incl_same; [exact Nr|apply rm_nodup, Nr'| |rewrite (rm_len w row' Nr' B); unfold zlen in *; lia]. intros z Iz. apply rm_in. split; [apply Inc, Iz|]. intros ->. contradiction.
    + replace (d + 1 - 1) with d by lia. intros H. apply (has_row T HT HS old HA d x _ Hd) in H as (row2 & R2 & I2). pose proof (ent_unique T d x _ _ ltac:(lia) R R2) as <-. contradiction.
Qed.
Lemma marks_found : exists dead, mark_dead_ents D (a_nents old) (fun d => kept_adj old 1 d) downs rs dirs = Ok dead /\ forall d, 1 <= d <= D -> exists m, zget dead d = Ok m /\ zlen m = t_nents T d /\ (forall b, In b m -> b = 0 \/ b = 1) /\
  forall x row, ent_verts T d x row -> zget m x = Ok 1 <-> falls d row.
Proof.
  pose proof (v_dim T HT) as HD. destruct (mark_dead_ents_ok _ _ _ _ _ _ _ (simplices T HT HS old HA) rails_fine) as (dead & E & H). exists dead. split.
  - rewrite <- E. apply (mark_ext T HT). intros d Hd. rewrite (counts_in T old HA d) by lia. apply (old_nents T old HR). lia.
  - intros d Hd. destruct (H d Hd) as (m & E1 & E2 & E3 & E4). rewrite (counts_in T old HA d) in E2 by lia. exists m. repeat (split; [assumption|]). intros x row R. rewrite E4, (dead_falls d x Hd). split; [|eauto]. intros (row' & R' & Fa). rewrite (ent_unique T d x _ _ ltac:(lia) R R'). exact Fa.
Qed.
(** new numbers *)
Lemma touches_row d x : 0 <= d <= D -> 0 <= x < t_nents T d -> touches (view old) 0 keys d x <-> exists row v, ent_verts T d x row /\ In v keys /\ In v row.
Proof.
  intros Hd Hx. pose proof (v_dim T HT) as HD. unfold touches. cbn [view degree ask_down]. destruct (Z.eq_dec d 0) as [->|Nd].
  - split; [intros [[_ I]|[H _]]; [|lia]; exists [x], x; split; [split; [exact Hx|reflexivity]|]; split; [exact I|left; reflexivity]|]. intros (row & v & [_ ->] & I & [<-|[]]). left. auto.
  - rewrite (old_verts T HT old HA d) by lia. rewrite (old_family T old HR), (deg0 T HS d) by lia. split.
    + intros [[H _]|(_ & s & k & Hs & E & I)]; [lia|]. assert (has_vert d (t_verts T d) x k) as HV by (exists s; split; [lia|exact E]). apply (has_row T HT HS old HA d x k ltac:(lia)) in HV as (row & R & Ir). exists row, k. auto.
    + intros (row & v & R & I & Ir). right. split; [lia|]. assert (has_vert d (t_verts T d) x v) as (s & Hs & E) by (apply (has_row T HT HS old HA d x v ltac:(lia)); eauto). exists s, v. split; [lia|auto].
Qed.
Lemma numbers_found d k2p n : 0 <= d <= D -> is_fan k2p -> zlen k2p = zlen keys + 1 -> last_of k2p = Ok n -> exists r, modify_ents_adapt (view old) d 0 keys k2p = Ok r /\ renumbers (t_nents T d) r /\ zlen (prods2new r) = n /\ NoDup (same2old r) /\ 0 <= nnew r /\
  forall x, In x (same2old r) <-> exists row, ent_verts T d x row /\ keyless row.
Proof.
  intros Hd Fan L Last. pose proof (v_dim T HT) as HD. destruct (adapt_numbering_lemma (view old) d 0 keys k2p n (view_ok T HT old HR HA)) as (r & E & G); try assumption.
  - cbn. rewrite (old_dim T old HR). exact Hd.
  - cbn. rewrite (old_dim T old HR). lia.
  - apply (c_once _ _ _ _ HC).
  - cbn. intros k I. rewrite (old_nents T old HR) by lia. apply (key_range T HT HS globals keys rails HC k I).
  - intros H0. cbn [view ask_down]. rewrite (old_verts T HT old HA d) by lia. split.
    + intros x s s' k k' Hs Hs' Ek Ek' I I'. cbn [view degree ask_down] in *. rewrite (old_verts T HT old HA d) in * by lia. rewrite (old_family T old HR), (deg0 T HS d) in * by lia. assert (has_vert d (t_verts T d) x k) as A by (exists s; split; [lia|exact Ek]). assert (has_vert d (t_verts T d) x k') as A' by (exists s'; split; [lia|exact Ek']). apply (has_row T HT HS old HA d x _ ltac:(lia)) in A as (row & R & A). apply (has_row T HT HS old HA d x _ ltac:(lia)) in A' as (row' & R' & A'). pose proof (ent_unique T d x _ _ ltac:(lia) R R') as <-. apply (one_goer T HT HS globals keys rails HC d x row k k' ltac:(lia) R); assumption.
    + intros k I. destruct (key_in T HT HS globals keys rails onto on_ok k d I ltac:(lia)) as (e & row & R & Ir). assert (has_vert d (t_verts T d) e k) as (s & _ & Es) by (apply (has_row T HT HS old HA d e k ltac:(lia)); eauto). eauto.
  - exists r. split; [exact E|]. destruct G as (G1 & G2 & G3 & G4 & G5 & G6 & G7 & G8 & G9 & G10 & G11 & G12). cbn [view nents] in *. rewrite (old_nents T old HR) in * by lia.
    split; [|split; [exact G4|split; [apply strict_nodup, G2|split; [rewrite G12; pose proof (zlen_nonneg (same2old r)); pose proof (zlen_nonneg (prods2new r)); lia|]]]].
    + constructor; assumption.
    + intros x. rewrite G1. split.
      * intros [Hx N]. destruct (ent_row T HT HS d x Hd Hx) as (row & R). exists row. split; [exact R|]. intros v Iv K. apply N, touches_row; try assumption. eauto.
      * intros (row & R & K). pose proof (ent_range T HT HS d x row Hd R) as Hx. split; [exact Hx|]. intros Th. apply touches_row in Th as (row' & v & R' & I & Ir); try assumption. pose proof (ent_unique T d x _ _ ltac:(lia) R R') as <-. exact (K v Ir I).
Qed.
End found.
