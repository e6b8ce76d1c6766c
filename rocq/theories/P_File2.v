(** How readers meet the bytes that were written, all of them or only the first. *)
From Verif Require Import Prelude M_Template M_Adj M_Parents M_Tags M_File S_File P_File.
Local Open Scope Z_scope.

Definition at_end : istream := mk_istream [] false.
(** the reader meets [b] and more, and takes exactly [b] *)
Definition exact_on {A} (R : reader A) (b : list Z) (v : A) : Prop := forall rest, R (mk_istream (b ++ rest) true) = Ok (v, mk_istream rest true).
(** the stream ends within [b0], or within [b1] after it; [k]: the data are compressed *)
Definition cut_on (k : bool) {A} (R : reader A) (b0 b1 : list Z) (Q : A -> Prop) : Prop :=
  (forall p, cut_short p b0 -> R (mk_istream p true) = UB \/ (k = true /\ R (mk_istream p true) = Abort)) /\
  (forall q, cut_short q b1 -> (exists v, Q v /\ R (mk_istream (b0 ++ q) true) = Ok (v, at_end)) \/ (k = true /\ R (mk_istream (b0 ++ q) true) = Abort)).
Definition meets (k : bool) {A} (R : reader A) (b0 b1 : list Z) (v : A) (Q : A -> Prop) : Prop := exact_on R (b0 ++ b1) v /\ cut_on k R b0 b1 Q.
Definition dead {A} (R : reader A) : Prop := R at_end = UB.

Lemma not_cut_nil p : ~ cut_short p [].
Proof. intros (q & Hq & E). destruct p; [|discriminate]. cbn in E. congruence. Qed.
Lemma cut_app p b c : cut_short p (b ++ c) -> cut_short p b \/ exists q, p = b ++ q /\ cut_short q c.
Proof.
  intros (q & Hq & E). revert p E. induction b as [|x b IH]; intros p E.
  - right. exists p. split; [reflexivity|]. exists q. auto.
  - destruct p as [|y p].
    + left. exists (x :: b). split; [discriminate|reflexivity].
    + cbn in E. injection E as -> E. destruct (IH _ E) as [(q' & H1 & H2)|(q' & H1 & H2)].
      * left. exists q'. split; [exact H1|]. cbn. f_equal. exact H2.
      * right. exists q'. split; [cbn; f_equal; exact H1|exact H2].
Qed.
Lemma meets_ok k {A} (v : A) Q : meets k (ret v) [] [] v Q.
Proof. split; [intros rest; reflexivity|]. split; intros p H; destruct (not_cut_nil _ H). Qed.
Lemma meets_weaken k {A} (R : reader A) b0 b1 v (Q Q' : A -> Prop) : (forall v, Q v -> Q' v) -> meets k R b0 b1 v Q -> meets k R b0 b1 v Q'.
Proof.
  intros H (E & C0 & C1). split; [exact E|]. split; [exact C0|]. intros q Hq. destruct (C1 q Hq) as [(w & Hw & Ew)|D]; [left; exists w; auto|right; exact D].
Qed.
Lemma meets_bind k {A B} (R : reader A) (f : A -> reader B) b0 b1 v Q c0 c1 w Q' :
  meets k R b0 b1 v Q -> (forall v', Q v' -> dead (f v')) -> meets k (f v) c0 c1 w Q' -> meets k (rbind R f) ((b0 ++ b1) ++ c0) c1 w Q'.
Proof.
  intros (E & C0 & C1) D (E' & C0' & C1'). split; [|split].
  - intros rest. unfold rbind. rewrite <- !app_assoc. rewrite (app_assoc b0). rewrite E. cbn [bind fst snd]. rewrite app_assoc. apply E'.
  - intros p Hp. apply cut_app in Hp as [Hp|(q & -> & Hq)].
    + apply cut_app in Hp as [Hp|(q & -> & Hq)].
      * unfold rbind. destruct (C0 p Hp) as [K|(K1 & K)]; rewrite K; [left|right]; auto.
      * unfold rbind. destruct (C1 q Hq) as [(v' & Hv & K)|(K1 & K)]; rewrite K; [left; cbn [bind fst snd]; apply D, Hv|right; auto].
    + unfold rbind. rewrite E. cbn [bind fst snd]. destruct (C0' q Hq) as [K|(K1 & K)]; rewrite K; [left|right]; auto.
  - intros q Hq. assert (rbind R f (mk_istream (((b0 ++ b1) ++ c0) ++ q) true) = f v (mk_istream (c0 ++ q) true)) as -> by (unfold rbind; rewrite <- app_assoc; rewrite E; reflexivity).
    apply C1', Hq.
Qed.
Lemma meets_pure k {A B} (R : reader A) (f : A -> reader B) b0 b1 v Q w (Q' : B -> Prop) :
  meets k R b0 b1 v Q -> exact_on (f v) [] w -> (forall v', Q v' -> exists w', Q' w' /\ f v' at_end = Ok (w', at_end)) -> meets k (rbind R f) b0 b1 w Q'.
Proof.
  intros (E & C0 & C1) F D. split; [|split].
  - intros rest. unfold rbind. rewrite E. cbn [bind fst snd]. apply (F rest).
  - intros p Hp. unfold rbind. destruct (C0 p Hp) as [K|(K1 & K)]; rewrite K; [left|right]; auto.
  - intros q Hq. unfold rbind. destruct (C1 q Hq) as [(v' & Hv & K)|(K1 & K)].
    + left. destruct (D v' Hv) as (w' & Hw & Ew). exists w'. split; [exact Hw|]. rewrite K. exact Ew.
    + right. split; [exact K1|]. rewrite K. reflexivity.
Qed.
(** a reader that is done with the stream when it returns: nothing was cut *)
Definition nothing {A} (v : A) : Prop := False.
Lemma meets_full k {A B} (R : reader A) (f : A -> reader B) b v c0 c1 w Q' :
  meets k R b [] v nothing -> meets k (f v) c0 c1 w Q' -> meets k (rbind R f) (b ++ c0) c1 w Q'.
Proof.
  intros H H'. replace (b ++ c0) with ((b ++ []) ++ c0) by (rewrite app_nil_r; reflexivity). eapply meets_bind; [exact H| |exact H']. intros v' K. destruct K.
Qed.
(** one value *)
Lemma stream_read_all b rest : stream_read (mk_istream (b ++ rest) true) (zlen b) = (b, mk_istream rest true).
Proof.
  unfold stream_read. cbn [good to_come]. rewrite zlen_app. destruct (Z.leb_spec (zlen b) (zlen b + zlen rest)); [|pose proof (zlen_nonneg rest); lia].
  unfold zlen. rewrite Nat2Z.id. rewrite firstn_app, Nat.sub_diag, firstn_all, firstn_O, app_nil_r, skipn_app, Nat.sub_diag, skipn_all. reflexivity.
Qed.
Lemma stream_read_cut q b : cut_short q b -> stream_read (mk_istream q true) (zlen b) = (q, at_end) /\ zlen q < zlen b.
Proof.
  intros (r & Hr & ->). assert (0 < zlen r) as L by (destruct r; [congruence|rewrite zlen_cons; pose proof (zlen_nonneg r); lia]).
  unfold stream_read. cbn [good to_come]. rewrite zlen_app. destruct (Z.leb_spec (zlen q + zlen r) (zlen q)); [lia|]. split; [reflexivity|lia].
Qed.
Lemma meets_used k m t v : in_range t v -> meets k (read_used m t (needs_swapping m)) (put t v) [] v nothing.
Proof.
  intros Hv. split; [|split].
  - intros rest. rewrite app_nil_r. unfold read_used, rbind, read_value. rewrite <- (put_zlen t v). rewrite stream_read_all, Z.eqb_refl. cbn [bind fst snd use]. rewrite read_one by (try apply put_byte; apply put_length). rewrite got_put by exact Hv. reflexivity.
  - intros p Hp. left. unfold read_used, rbind, read_value. destruct (stream_read_cut _ _ Hp) as [E L]. rewrite <- (put_zlen t v), E. destruct (Z.eqb_spec (zlen p) (zlen (put t v))); [lia|]. reflexivity.
  - intros q Hq. destruct (not_cut_nil _ Hq).
Qed.
Lemma dead_used {B} m t s (f : Z -> reader B) : dead (rbind (read_used m t s) f).
Proof. unfold dead, read_used, rbind, read_value, at_end, stream_read. cbn [good]. destruct t; reflexivity. Qed.
Lemma dead_bind {A B} (R : reader A) (f : A -> reader B) : dead R -> dead (rbind R f).
Proof. unfold dead, rbind. intros ->. reflexivity. Qed.
Lemma dead_used' m t s : dead (read_used m t s).
Proof. unfold dead, read_used, rbind, read_value, at_end, stream_read. cbn [good]. destruct t; reflexivity. Qed.

(** bytes *)
Lemma filled_all h b : filled_up h b (zlen b) = b.
Proof. unfold filled_up. rewrite zfromto_nil by lia. apply app_nil_r. Qed.
Lemma filled_zlen h b n : zlen b <= n -> zlen (filled_up h b n) = n.
Proof. intros H. unfold filled_up. rewrite zlen_app, zlen_map, zlen_zfromto by lia. lia. Qed.
Lemma meets_bytes k h b : meets k (fun s => let (got, s) := stream_read s (zlen b) in Ok (filled_up h got (zlen b), s)) [] b b (fun l => zlen l = zlen b).
Proof.
  split; [|split].
  - intros rest. cbn [app]. rewrite stream_read_all, filled_all. reflexivity.
  - intros p Hp. destruct (not_cut_nil _ Hp).
  - intros q Hq. destruct (stream_read_cut _ _ Hq) as [E L]. left. cbn [app]. rewrite E. eexists. split; [|reflexivity]. apply filled_zlen. lia.
Qed.

(** arrays: the head and the data *)
Definition head_bytes (z : zlib) (k : bool) (t : scalar) (a : list Z) : list Z :=
  put I32 (zlen a) ++ if k then put I64 (zlen (compress z (put_array t a))) else [].
Definition data_bytes (z : zlib) (k : bool) (t : scalar) (a : list Z) : list Z := if k then compress z (put_array t a) else put_array t a.
Lemma put_array_fits t a : zlen a <= 2147483647 -> zlen (put_array t a) <= 8 * 2147483647.
Proof. intros H. rewrite put_array_zlen. pose proof (zlen_nonneg a). destruct t; cbn [size_of]; lia. Qed.
Lemma write_array_bytes z m t a : zlib_works z -> array_of t a -> write_array z m t a (has_zlib m) (needs_swapping m) = Ok (head_bytes z (has_zlib m) t a ++ data_bytes z (has_zlib m) t a).
Proof.
  intros Hz (Hc & Ha). unfold write_array, head_bytes, data_bytes. rewrite array_bytes_put, !write_value_put. unfold countable in Hc. pose proof (zlen_nonneg a). rewrite (cast_in I32) by (cbn; lia).
  destruct (Hz (put_array t a) (put_array_byte t a) (put_array_fits t a Hc)) as (_ & _ & L). pose proof (zlen_nonneg (compress z (put_array t a))). rewrite (cast_in I64) by (cbn; lia).
  destruct (has_zlib m); cbn [check negb bind]; rewrite <- app_assoc; reflexivity.
Qed.
Lemma meets_array z h m t k a : zlib_works z -> array_of t a -> (k = true -> has_zlib m = true) ->
  meets k (read_array z h m t k (needs_swapping m)) (head_bytes z k t a) (data_bytes z k t a) a (fun a' => zlen a' = zlen a).
Proof.
  intros Hz (Hc & Ha) Hk. unfold countable in Hc. pose proof (zlen_nonneg a) as La. unfold read_array, head_bytes, data_bytes.
  eapply meets_full; [apply meets_used; cbn; lia|]. unfold check. destruct (Z.leb_spec 0 (zlen a)); [|lia].
  match goal with |- meets ?k (rbind (lift (Ok tt)) ?f) ?b0 ?b1 ?v ?Q => change (meets k (f tt) b0 b1 v Q) end. cbv beta zeta.
  assert (zlen (put_array t a) = zlen a * Z.of_nat (size_of t)) as Lp by apply put_array_zlen.
  assert (forall u, zlen u = zlen a * Z.of_nat (size_of t) -> zlen (swap_array t (array_values m t (Z.to_nat (zlen a)) u) (needs_swapping m)) = zlen a) as LA.
  { intros u _. unfold swap_array. assert (forall n l, length (array_values m t n l) = n) as K by (clear; induction n; intros l; cbn; [reflexivity|]; rewrite IHn; reflexivity).
    destruct (needs_swapping m); [rewrite zlen_map|]; unfold zlen; rewrite K; lia. }
  assert (swap_array t (array_values m t (Z.to_nat (zlen a)) (put_array t a)) (needs_swapping m) = a) as GA.
  { rewrite array_values_got; [|apply put_array_byte|]. unfold zlen. rewrite Nat2Z.id. apply got_put_array, Ha. unfold zlen in *. lia. }
  destruct k; cbn [negb].
  - rewrite (Hk eq_refl). destruct (Hz (put_array t a) (put_array_byte t a) (put_array_fits t a Hc)) as (Hu & Hb & L). pose proof (zlen_nonneg (compress z (put_array t a))) as Lc.
    eapply (meets_pure _ _ _ _ _ (put_array t a) (fun u => zlen u = zlen a * Z.of_nat (size_of t))).
    + replace (put I64 (zlen (compress z (put_array t a)))) with (put I64 (zlen (compress z (put_array t a))) ++ []) by apply app_nil_r. eapply meets_full; [apply meets_used; cbn; lia|].
      destruct (Z.leb_spec 0 (zlen (compress z (put_array t a)))); [|lia].
      match goal with |- meets ?k (rbind (lift (Ok tt)) ?f) ?b0 ?b1 ?v ?Q => change (meets k (f tt) b0 b1 v Q) end. cbv beta.
      split; [|split].
      * intros rest. cbn [app]. rewrite stream_read_all, filled_all, <- Lp, Hu, Z.eqb_refl. reflexivity.
      * intros p Hp. destruct (not_cut_nil _ Hp).
      * intros q Hq. destruct (stream_read_cut _ _ Hq) as [E _]. cbn [app]. rewrite E. destruct (uncompress z (filled_up (h true) q (zlen (compress z (put_array t a)))) (zlen a * Z.of_nat (size_of t))) as [u|]; [|right; auto]. unfold check. destruct (Z.eqb_spec (zlen u) (zlen a * Z.of_nat (size_of t))) as [Eu|Eu]; [|right; auto].
        left. exists u. cbn [bind]. split; [exact Eu|reflexivity].
    + intros rest. unfold ret. rewrite GA. reflexivity.
    + intros u Hu'. eexists. split; [|reflexivity]. apply LA, Hu'.
  - replace (if has_zlib m then _ else _) with (fun s => let (got, s) := stream_read s (zlen a * Z.of_nat (size_of t)) in Ok (filled_up (h false) got (zlen a * Z.of_nat (size_of t)), s)) by (destruct (has_zlib m); reflexivity).
    eapply (meets_pure _ _ _ _ _ (put_array t a) (fun u => zlen u = zlen a * Z.of_nat (size_of t))).
    + rewrite <- Lp. apply meets_bytes.
    + intros rest. unfold ret. rewrite GA. reflexivity.
    + intros u Hu'. eexists. split; [|reflexivity]. apply LA, Hu'.
Qed.
Lemma dead_array z h m t k s : dead (read_array z h m t k s).
Proof. apply dead_used. Qed.

(** strings *)
Lemma write_string_bytes m l : name_ok l -> write_string m l (needs_swapping m) = put I32 (zlen l) ++ l.
Proof. intros (Hc & _). unfold write_string. rewrite write_value_put. unfold countable in Hc. pose proof (zlen_nonneg l). rewrite (cast_in I32) by (cbn; lia). reflexivity. Qed.
Lemma meets_string k m l : name_ok l -> meets k (read_string m (needs_swapping m)) (put I32 (zlen l)) l l (fun _ => True).
Proof.
  intros (Hc & _). unfold countable in Hc. pose proof (zlen_nonneg l). unfold read_string. replace (put I32 (zlen l)) with (put I32 (zlen l) ++ []) by apply app_nil_r.
  eapply meets_full; [apply meets_used; cbn; lia|]. unfold check. destruct (Z.leb_spec 0 (zlen l)); [|lia].
  match goal with |- meets ?k (rbind (lift (Ok tt)) ?f) ?b0 ?b1 ?v ?Q => change (meets k (f tt) b0 b1 v Q) end. cbv beta.
  eapply meets_weaken; [|apply meets_bytes]. trivial.
Qed.
Lemma dead_string m s : dead (read_string m s).
Proof. apply dead_used. Qed.

(** loops *)
Lemma meets_loop_over k {A X} (r : A -> X -> reader A) (Q : A -> Prop) (l : list X) (by_ : X -> list Z) (P : X -> list Z -> Prop) (st : list X -> A) :
  (forall pre x post, l = pre ++ x :: post -> exists b0 b1, by_ x = b0 ++ b1 /\ P x b1 /\ meets k (r (st pre) x) b0 b1 (st (pre ++ [x])) Q) -> (forall a x, Q a -> dead (r a x)) ->
  exists c0 c1, flat_map by_ l = c0 ++ c1 /\ meets k (loop_over l r (st [])) c0 c1 (st l) Q /\ forall pre x, l = pre ++ [x] -> P x c1.
Proof.
  intros H D. assert (forall post pre, l = pre ++ post -> exists c0 c1, flat_map by_ post = c0 ++ c1 /\ meets k (loop_over post r (st pre)) c0 c1 (st l) Q /\ forall pre' x, post = pre' ++ [x] -> P x c1) as K; [|apply (K l []); reflexivity].
  induction post as [|x post IH]; intros pre E.
  - rewrite app_nil_r in E. subst pre. exists [], []. split; [reflexivity|]. split; [apply meets_ok|]. intros pre' x E'. destruct pre'; discriminate.
  - destruct (H pre x post E) as (b0 & b1 & Eb & HP & Hm). destruct (IH (pre ++ [x])) as (c0 & c1 & Ec & M & Hl). { rewrite <- app_assoc. exact E. }
    cbn [loop_over flat_map]. rewrite Ec, Eb. destruct post as [|y post].
    + cbn in Ec. symmetry in Ec. apply app_eq_nil in Ec as [-> ->]. exists b0, b1. split; [apply app_nil_r|]. split.
      * eapply meets_pure; [exact Hm| |].
        -- intros rest. cbn [loop_over app]. rewrite E. reflexivity.
        -- intros a Ha. exists a. split; [exact Ha|reflexivity].
      * intros pre' x' E'. destruct pre' as [|p pre']; [injection E' as <-; exact HP|]. injection E' as _ E'. destruct pre'; discriminate.
    + exists ((b0 ++ b1) ++ c0), c1. split; [apply app_assoc|]. split.
      * eapply meets_bind; [exact Hm| |exact M]. intros a Ha. cbn [loop_over]. apply dead_bind, D, Ha.
      * intros pre' x' E'. destruct pre' as [|p pre']; [discriminate|]. injection E' as _ E'. eapply Hl; exact E'.
Qed.
Lemma loop_n_over {A X} (r : A -> reader A) (l : list X) a s : loop_over l (fun a _ => r a) a s = loop_n (length l) r a s.
Proof. revert a s. induction l as [|x l IH]; intros a s; [reflexivity|]. cbn [length loop_n loop_over]. unfold rbind. destruct (r a s) as [p| |]; cbn [bind]; [apply IH|reflexivity|reflexivity]. Qed.
Lemma meets_ext k {A} (R R' : reader A) b0 b1 v Q : (forall s, R s = R' s) -> meets k R b0 b1 v Q -> meets k R' b0 b1 v Q.
Proof.
  intros H (E & C0 & C1). split; [intros rest; rewrite <- H; apply E|]. split.
  - intros p Hp. rewrite <- H. apply C0, Hp.
  - intros q Hq. rewrite <- H. apply C1, Hq.
Qed.
Lemma rbind_assoc {A B C} (R : reader A) (f : A -> reader B) (g : B -> reader C) s : rbind R (fun x => rbind (f x) g) s = rbind (rbind R f) g s.
Proof. unfold rbind. destruct (R s) as [p| |]; reflexivity. Qed.
Lemma meets_assoc k {A B C} (R : reader A) (f : A -> reader B) (g : B -> reader C) b0 b1 v Q : meets k (rbind R (fun x => rbind (f x) g)) b0 b1 v Q -> meets k (rbind (rbind R f) g) b0 b1 v Q.
Proof. apply meets_ext. intros s. apply rbind_assoc. Qed.
Lemma meets_loop_n k {A X} (r : A -> reader A) (Q : A -> Prop) (l : list X) (by_ : X -> list Z) (st : list X -> A) :
  (forall pre x post, l = pre ++ x :: post -> exists b0 b1, by_ x = b0 ++ b1 /\ meets k (r (st pre)) b0 b1 (st (pre ++ [x])) Q) -> (forall a, Q a -> dead (r a)) ->
  exists c0 c1, flat_map by_ l = c0 ++ c1 /\ meets k (loop_n (length l) r (st [])) c0 c1 (st l) Q.
Proof.
  intros H D. destruct (meets_loop_over k (fun a (_ : X) => r a) Q l by_ (fun _ _ => True) st) as (c0 & c1 & E & M & _).
  - intros pre x post E. destruct (H pre x post E) as (b0 & b1 & Eb & M). exists b0, b1. auto.
  - intros a _. apply D.
  - exists c0, c1. split; [exact E|]. eapply meets_ext; [|exact M]. intros s. apply loop_n_over.
Qed.
(** when nothing can be cut *)
Lemma meets_loop_n_full k {A X} (r : A -> reader A) (l : list X) (by_ : X -> list Z) (st : list X -> A) :
  (forall pre x post, l = pre ++ x :: post -> meets k (r (st pre)) (by_ x) [] (st (pre ++ [x])) nothing) ->
  meets k (loop_n (length l) r (st [])) (flat_map by_ l) [] (st l) nothing.
Proof.
  intros H. destruct (meets_loop_over k (fun a (_ : X) => r a) nothing l by_ (fun _ b => b = []) st) as (c0 & c1 & E & M & L).
  - intros pre x post E. exists (by_ x), []. split; [symmetry; apply app_nil_r|]. split; [reflexivity|]. exact (H pre x post E).
  - intros a _ K. destruct K.
  - assert (c1 = []) as ->. { destruct l as [|x l'] using rev_ind; [symmetry in E; apply app_eq_nil in E; tauto|]. eapply L. reflexivity. }
    rewrite E, app_nil_r. eapply meets_ext; [|exact M]. intros s. apply loop_n_over.
Qed.
Lemma meets_read_n k {A X} (r : reader A) (l : list X) (by_ : X -> list Z) (f : X -> A) :
  (forall x, In x l -> meets k r (by_ x) [] (f x) nothing) -> meets k (read_n (length l) r) (flat_map by_ l) [] (map f l) nothing.
Proof.
  induction l as [|x l IH]; intros H; [apply meets_ok|]. cbn [length read_n flat_map map]. eapply meets_full; [apply H; left; reflexivity|].
  replace (flat_map by_ l) with (flat_map by_ l ++ []) by apply app_nil_r. eapply meets_full; [apply IH; intros y Hy; apply H; right; exact Hy|]. apply meets_ok.
Qed.
