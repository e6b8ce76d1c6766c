From Verif Require Import Prelude M_Xml S_Xml.
Local Open Scope Z_scope.

Ltac eqb := repeat match goal with
  | |- context [?a =? ?b] => let E := fresh in destruct (Z.eqb_spec a b) as [E|E]; [try (exfalso; first [congruence|tauto|lia])|try (exfalso; first [congruence|lia])]
  end.

Section Loop.
Variables (n : list Z) (ty : tag_type) (m : list (list Z * list Z)).

Lemma loop_spaces (k : nat) nm v q st0 l : In st0 [0; 1; 2; 4]%nat -> loop (St st0 n ty m nm v q) (spaces k ++ l) = loop (St st0 n ty m nm v q) l.
Proof.
  intros H. induction k as [|k IH]; [reflexivity|]. cbn [spaces repeat app loop]. rewrite <- IH.
  assert (step (St st0 n ty m nm v q) 32 = Some (St st0 n ty m nm v q)) as ->; [|reflexivity].
  destruct H as [<-|[<-|[<-|[<-|[]]]]]; reflexivity.
Qed.
Lemma loop5 nm v q l : forall r, ~ In 61 r -> loop (St 5 n ty m nm v q) (r ++ l) = loop (St 5 n ty m (nm ++ r) v q) l.
Proof.
  intros r. revert nm. induction r as [|c r IH]; intros nm H; [rewrite app_nil_r; reflexivity|]. cbn [app loop step state]. unfold c_eq.
  destruct (Z.eqb_spec c 61) as [->|_]; [exfalso; apply H; left; reflexivity|]. unfold push_nm. cbn.
  rewrite IH by (intros Hi; apply H; right; exact Hi). rewrite <- app_assoc. reflexivity.
Qed.
Lemma loop6 nm v q l : forall r, ~ In 34 r -> ~ In 39 r -> loop (St 6 n ty m nm v q) (r ++ l) = loop (St 6 n ty m nm v q) l.
Proof.
  induction r as [|c r IH]; intros H1 H2; [reflexivity|]. cbn [app loop step state]. unfold c_dquote, c_squote.
  destruct (Z.eqb_spec c 34) as [->|_]; [exfalso; apply H1; left; reflexivity|].
  destruct (Z.eqb_spec c 39) as [->|_]; [exfalso; apply H2; left; reflexivity|]. cbn [orb].
  apply IH; intros Hi; [apply H1|apply H2]; right; exact Hi.
Qed.
Lemma loop7 nm v q l : forall r, ~ In q r -> loop (St 7 n ty m nm v q) (r ++ l) = loop (St 7 n ty m nm (v ++ r) q) l.
Proof.
  intros r. revert v. induction r as [|c r IH]; intros v H; [rewrite app_nil_r; reflexivity|]. cbn [app loop step state quot].
  destruct (Z.eqb_spec c q) as [->|_]; [exfalso; apply H; left; reflexivity|]. unfold push_val. cbn.
  rewrite IH by (intros Hi; apply H; right; exact Hi). rewrite <- app_assoc. reflexivity.
Qed.
Lemma loop8 nm v q l : forall r, ~ In 62 r -> loop (St 8 n ty m nm v q) (r ++ l) = loop (St 8 n ty m nm v q) l.
Proof.
  induction r as [|c r IH]; intros H1; [reflexivity|]. cbn [app loop step state]. unfold c_gt.
  destruct (Z.eqb_spec c 62) as [->|_]; [exfalso; apply H1; left; reflexivity|]. apply IH. intros Hi. apply H1. right. exact Hi.
Qed.
Lemma loop9 nm v q : forall r, loop (St 9 n ty m nm v q) r = Some (St 9 n ty m nm v q).
Proof. induction r as [|c r IH]; [reflexivity|]. exact IH. Qed.

Lemma loop_attribute a q l : attribute_ok a -> loop (St 4 n ty m [] [] q) (attribute_text a ++ l) = loop (St 4 n ty (assign m (a_name a) (a_value a)) [] [] (a_quote a)) l.
Proof.
  intros ((c & r & En & H1 & H2 & H3 & H4) & S1 & S2 & Q & V). unfold attribute_text. rewrite <- !app_assoc. rewrite loop_spaces by (cbn; auto). rewrite En.
  cbn [app loop step state]. unfold c_slash, c_gt, c_space. destruct (Z.eqb_spec c 47); [congruence|]. destruct (Z.eqb_spec c 62); [congruence|].
  destruct (Z.eqb_spec c 32); [congruence|]. cbn [negb]. unfold push_nm. cbn [t_name t_type t_atts M_Xml.att_nm att_val quot app].
  rewrite loop5 by exact H4. cbn [app loop step state]. unfold c_eq. rewrite Z.eqb_refl. unfold goto. cbn [t_name t_type t_atts att_nm att_val quot].
  rewrite loop6 by assumption. cbn [loop step state]. unfold c_dquote, c_squote.
  assert (HQ : (a_quote a =? 34) || (a_quote a =? 39) = true) by (apply orb_true_iff; rewrite !Z.eqb_eq; exact Q). rewrite HQ.
  unfold set_quot. cbn [t_name t_type t_atts att_nm att_val quot]. rewrite loop7 by exact V. cbn [app loop step state quot]. rewrite Z.eqb_refl. reflexivity.
Qed.
End Loop.

Lemma loop3 ty m nm v q l : forall r n, ~ In 32 r -> ~ In 47 r -> ~ In 62 r -> loop (St 3 n ty m nm v q) (r ++ l) = loop (St 3 (n ++ r) ty m nm v q) l.
Proof.
  induction r as [|c r IH]; intros n H1 H2 H3; [rewrite app_nil_r; reflexivity|]. cbn [app loop step state]. unfold c_space, c_slash, c_gt.
  destruct (Z.eqb_spec c 32) as [->|_]; [exfalso; apply H1; left; reflexivity|].
  destruct (Z.eqb_spec c 47) as [->|_]; [exfalso; apply H2; left; reflexivity|].
  destruct (Z.eqb_spec c 62) as [->|_]; [exfalso; apply H3; left; reflexivity|].
  unfold push_name. cbn. rewrite IH; [rewrite <- app_assoc; reflexivity|..]; intros Hi; [apply H1|apply H2|apply H3]; right; exact Hi.
Qed.

Definition assigned (m : list (list Z * list Z)) (atts : list attribute) := fold_left (fun m a => assign m (a_name a) (a_value a)) atts m.
Lemma loop_attributes n ty l : forall atts m q, Forall attribute_ok atts ->
  exists q', loop (St 4 n ty m [] [] q) (concat (map attribute_text atts) ++ l) = loop (St 4 n ty (assigned m atts) [] [] q') l.
Proof.
  induction atts as [|a atts IH]; intros m q H; [exists q; reflexivity|]. inversion H; subst. cbn [map concat]. rewrite <- app_assoc, loop_attribute by assumption.
  apply IH. assumption.
Qed.
Lemma loop_ending st0 n ty m q e : In st0 [3; 4]%nat -> ending_ok e ->
  exists s, loop (St st0 n ty m [] [] q) (ending_text e) = Some s /\ state s = 9%nat /\ t_name s = n /\ t_atts s = m /\
  t_type s = match e with Close _ => ty | SlashClose _ _ => if (st0 =? 4)%nat then SELF_CLOSING else ty end.
Proof.
  intros H He. destruct e as [r|sk r]; cbn [ending_text loop].
  - exists (St 9 n ty m [] [] q). destruct H as [<-|[<-|[]]]; (split; [exact (loop9 n ty m [] [] q r)|auto]).
  - destruct H as [<-|[<-|[]]]; cbn [step state]; cbn [c_slash c_space c_gt Z.eqb Pos.eqb negb]; unfold goto, set_type; cbn [t_name t_type t_atts att_nm att_val quot];
      rewrite loop8 by exact He; cbn [loop step state]; unfold c_gt; rewrite Z.eqb_refl; unfold goto; cbn [t_name t_type t_atts att_nm att_val quot]; rewrite loop9; eexists; (split; [reflexivity|]); auto.
Qed.

Lemma parse_text x : tag_ok x -> parse_tag (tag_text x) = Some (Tag (name x) (kind x) (assigned [] (attributes x))).
Proof.
  intros [(c & r & En & C1 & C2 & R1 & R2 & R3) HR]. unfold parse_tag, tag_text. rewrite <- ?app_assoc. rewrite loop_spaces by (cbn; auto).
  cbn [app loop step state]. unfold c_lt at 1. rewrite Z.eqb_refl. unfold goto. cbn [t_name t_type t_atts att_nm att_val quot]. rewrite loop_spaces by (cbn; auto).
  set (ty := match slash x with Some _ => END | None => START end).
  assert (Nm : forall l, loop (St 1 [] START [] [] [] 0) (match slash x with None => [] | Some g => 47 :: spaces g end ++ name x ++ l) = loop (St 3 (name x) ty [] [] [] 0) l).
  { intros l. rewrite En. unfold ty. destruct (slash x) as [g|].
    - cbn [app loop step state]. unfold c_slash at 1. rewrite Z.eqb_refl. unfold set_type. cbn [t_name t_type t_atts att_nm att_val quot].
      rewrite loop_spaces by (cbn; auto). cbn [app loop step state]. unfold c_space at 1. destruct (Z.eqb_spec c 32); [congruence|]. cbn [negb].
      unfold push_name. cbn [t_name t_type t_atts att_nm att_val quot app]. rewrite loop3 by assumption. reflexivity.
    - cbn [app loop step state]. unfold c_slash at 1, c_space at 1. destruct (Z.eqb_spec c 47); [destruct (C2 eq_refl); assumption|].
      destruct (Z.eqb_spec c 32); [congruence|]. cbn [negb]. unfold push_name. cbn [t_name t_type t_atts att_nm att_val quot app].
      rewrite loop3 by assumption. reflexivity. }
  rewrite Nm. unfold attributes, kind. destruct (after_name x) as [e|atts gap e]; cbn [rest_text rest_ok] in *.
  - destruct (loop_ending 3 (name x) ty [] 0 e) as (s & -> & -> & -> & -> & ->); [cbn; auto|exact HR|]. cbn. unfold assigned. cbn. destruct e; reflexivity.
  - destruct HR as [HA HE]. cbn [loop step state]. unfold c_space at 1. rewrite Z.eqb_refl. unfold goto. cbn [t_name t_type t_atts att_nm att_val quot].
    destruct (loop_attributes (name x) ty (spaces gap ++ ending_text e) atts [] 0 HA) as (q & ->). rewrite loop_spaces by (cbn; auto).
    destruct (loop_ending 4 (name x) ty (assigned [] atts) q e) as (s & -> & -> & -> & -> & ->); [cbn; auto|exact HE|]. cbn. destruct e; reflexivity.
Qed.

Lemma lookup_assign m k v k' : lookup (assign m k v) k' = if string_dec k k' then Some v else lookup m k'.
Proof.
  induction m as [|[a b] m IH]; cbn [assign lookup]; [reflexivity|]. destruct (string_dec a k) as [->|Ha]; cbn [lookup].
  - destruct (string_dec k k'); reflexivity.
  - rewrite IH. destruct (string_dec a k') as [->|]; [|reflexivity]. destruct (string_dec k k'); [congruence|reflexivity].
Qed.
Lemma lookup_assigned k : forall atts m, lookup (assigned m atts) k = match last_value k atts with Some v => Some v | None => lookup m k end.
Proof.
  induction atts as [|a atts IH]; intros m; [reflexivity|]. cbn [assigned fold_left last_value]. fold (assigned (assign m (a_name a) (a_value a)) atts). rewrite IH, lookup_assign.
  destruct (last_value k atts); [reflexivity|]. destruct (string_dec (a_name a) k); reflexivity.
Qed.

Lemma parse_text_spec x : tag_ok x -> exists t, parse_tag (tag_text x) = Some t /\ elem_name t = name x /\ type t = kind x /\
  forall k, lookup (attribs t) k = last_value k (attributes x).
Proof.
  intros H. eexists. split; [apply parse_text, H|]. cbn [elem_name type attribs]. split; [reflexivity|]. split; [reflexivity|].
  intros k. rewrite lookup_assigned. destruct (last_value k (attributes x)); reflexivity.
Qed.

(** * Nothing else is accepted *)
Lemma span (P : Z -> bool) l : exists p r, l = p ++ r /\ Forall (fun c => P c = true) p /\ (r = [] \/ exists c r', r = c :: r' /\ P c = false).
Proof.
  induction l as [|c l (p & r & E & Hp & Hr)]; [exists [], []; auto|]. destruct (P c) eqn:EP.
  - exists (c :: p), r. subst l. auto.
  - exists [], (c :: l). split; [reflexivity|]. split; [constructor|]. right. eauto.
Qed.
Lemma span_not (x : Z) l : (~ In x l) \/ exists p r, l = p ++ x :: r /\ ~ In x p.
Proof.
  destruct (span (fun c => negb (c =? x)) l) as (p & r & -> & Hp & Hr).
  assert (Hx : ~ In x p) by (intros H; rewrite Forall_forall in Hp; specialize (Hp x H); rewrite Z.eqb_refl in Hp; discriminate).
  destruct Hr as [->|(c & r' & -> & Hc)]; [left; rewrite app_nil_r; exact Hx|]. right. apply negb_false_iff, Z.eqb_eq in Hc. subst c. eauto.
Qed.
Lemma span_spaces l : exists k r, l = spaces k ++ r /\ (r = [] \/ exists c r', r = c :: r' /\ c <> 32).
Proof.
  induction l as [|c l (k & r & -> & Hr)]; [exists O, []; auto|]. destruct (Z.eq_dec c 32) as [->|Hn].
  - exists (S k), r. auto.
  - exists O, (c :: spaces k ++ r). split; [reflexivity|]. right. eauto.
Qed.

Definition accepts (o : option st) : Prop := exists s, o = Some s /\ state s = 9%nat.
Lemma no_accept s : state s <> 9%nat -> ~ accepts (Some s).
Proof. intros H (s' & E & H'). injection E as <-. contradiction. Qed.

Lemma accepts8 n ty m nm v q l : accepts (loop (St 8 n ty m nm v q) l) -> exists sk r, l = sk ++ 62 :: r /\ ~ In 62 sk.
Proof.
  intros H. destruct (span_not 62 l) as [Hn|(p & r & -> & Hp)]; [exfalso|eauto].
  rewrite <- (app_nil_r l), loop8 in H by exact Hn. apply no_accept in H; [exact H|discriminate].
Qed.

Lemma accepts4 n ty : forall k l m q, (length l < k)%nat -> accepts (loop (St 4 n ty m [] [] q) l) ->
  exists atts gap e, l = concat (map attribute_text atts) ++ spaces gap ++ ending_text e /\ Forall attribute_ok atts /\ ending_ok e.
Proof.
  induction k as [|k IH]; intros l m q Hk H; [lia|]. destruct (span_spaces l) as (g & r & -> & Hr). rewrite loop_spaces in H by (cbn; auto).
  destruct Hr as [->|(c & r' & -> & Hc)]; [exfalso; revert H; apply no_accept; discriminate|].
  cbn [loop step state] in H. unfold c_slash, c_gt, c_space in H. destruct (Z.eqb_spec c 47) as [->|H47].
  - unfold set_type in H. apply accepts8 in H as (sk & r & -> & Hs). exists [], g, (SlashClose sk r). cbn. auto.
  - destruct (Z.eqb_spec c 62) as [->|H62].
    + exists [], g, (Close r'). cbn. auto.
    + destruct (Z.eqb_spec c 32); [congruence|]. cbn [negb] in H. unfold push_nm in H. cbn [t_name t_type t_atts att_nm att_val quot app] in H.
      destruct (span_not 61 r') as [Hn|(nm & r2 & -> & Hnm)].
      { exfalso. rewrite <- (app_nil_r r'), loop5 in H by exact Hn. revert H. apply no_accept. discriminate. }
      rewrite loop5 in H by exact Hnm. cbn [app loop step state] in H. unfold c_eq in H. rewrite Z.eqb_refl in H. unfold goto in H. cbn [t_name t_type t_atts att_nm att_val quot] in H.
      destruct (span (fun c => negb ((c =? 34) || (c =? 39))) r2) as (sk & r3 & -> & Hsk & Hr3). rewrite Forall_forall in Hsk.
      assert (S1 : ~ In 34 sk) by (intros Hi; specialize (Hsk _ Hi); discriminate). assert (S2 : ~ In 39 sk) by (intros Hi; specialize (Hsk _ Hi); discriminate).
      rewrite loop6 in H by assumption. destruct Hr3 as [->|(qc & r4 & -> & Hq)]; [exfalso; revert H; apply no_accept; discriminate|].
      apply negb_false_iff in Hq. cbn [loop step state] in H. unfold c_dquote, c_squote in H. rewrite Hq in H. unfold set_quot in H. cbn [t_name t_type t_atts att_nm att_val quot] in H.
      destruct (span_not qc r4) as [Hn|(v & r5 & -> & Hv)].
      { exfalso. rewrite <- (app_nil_r r4), loop7 in H by exact Hn. revert H. apply no_accept. discriminate. }
      rewrite loop7 in H by exact Hv. cbn [app loop step state quot] in H. rewrite Z.eqb_refl in H. unfold set_att in H. cbn [t_name t_type t_atts att_nm att_val quot] in H.
      apply IH in H as (atts & gap & e & -> & HA & HE).
      * exists (Attribute g (c :: nm) sk qc v :: atts), gap, e. split; [|split; [|exact HE]].
        -- cbn [map concat attribute_text a_gap a_name a_skip a_quote a_value]. unfold attribute_text. cbn [a_gap a_name a_skip a_quote a_value]. rewrite <- ?app_assoc. cbn [app]. rewrite <- ?app_assoc. cbn [app]. rewrite <- ?app_assoc. reflexivity.
        -- constructor; [|exact HA]. split; [exists c, nm; repeat split; auto|]. cbn [a_gap a_name a_skip a_quote a_value]. repeat split; auto.
           apply orb_true_iff in Hq. rewrite !Z.eqb_eq in Hq. exact Hq.
      * rewrite app_length in Hk. cbn [length] in Hk. rewrite app_length in Hk. cbn [length] in Hk. rewrite app_length in Hk. cbn [length] in Hk. rewrite app_length in Hk. cbn [length] in Hk. lia.
Qed.

Lemma accepts3 n ty q l : accepts (loop (St 3 n ty [] [] [] q) l) ->
  exists r x, l = r ++ rest_text x /\ ~ In 32 r /\ ~ In 47 r /\ ~ In 62 r /\ rest_ok x.
Proof.
  intros H. destruct (span (fun c => negb ((c =? 32) || (c =? 47) || (c =? 62))) l) as (p & r & -> & Hp & Hr). rewrite Forall_forall in Hp.
  assert (P1 : ~ In 32 p) by (intros Hi; specialize (Hp _ Hi); discriminate). assert (P2 : ~ In 47 p) by (intros Hi; specialize (Hp _ Hi); discriminate).
  assert (P3 : ~ In 62 p) by (intros Hi; specialize (Hp _ Hi); discriminate). rewrite loop3 in H by assumption.
  destruct Hr as [->|(c & r' & -> & Hc)]; [exfalso; revert H; apply no_accept; discriminate|]. apply negb_false_iff in Hc. rewrite !orb_true_iff, !Z.eqb_eq in Hc.
  exists p. destruct Hc as [[->| ->]| ->]; cbn [loop step state] in H; cbn [c_space c_slash c_gt Z.eqb Pos.eqb] in H; unfold goto in H; cbn [t_name t_type t_atts att_nm att_val quot] in H.
  - apply (accepts4 _ _ (S (length r'))) in H as (atts & gap & e & -> & HA & HE); [|lia]. exists (Spaced atts gap e). cbn. auto 10.
  - apply accepts8 in H as (sk & r & -> & Hs). exists (Tight (SlashClose sk r)). cbn. auto 10.
  - exists (Tight (Close r')). cbn. auto 10.
Qed.

Lemma parse_sound line t : parse_tag line = Some t -> exists x, tag_ok x /\ tag_text x = line.
Proof.
  unfold parse_tag. intros E. assert (H : accepts (loop (St 0 [] START [] [] [] 0) line)).
  { destruct (loop _ line) as [s|]; [|discriminate]. destruct (Nat.eqb_spec (state s) 9); [|discriminate]. exists s. auto. }
  clear E. destruct (span_spaces line) as (k0 & r0 & -> & H0). rewrite loop_spaces in H by (cbn; auto).
  destruct H0 as [->|(c & r & -> & Hc)]; [exfalso; revert H; apply no_accept; discriminate|]. cbn [loop step state] in H. unfold c_lt, c_space in H.
  destruct (Z.eqb_spec c 60) as [->|]; [|destruct (Z.eqb_spec c 32); [congruence|]; destruct H as (? & ? & _); discriminate].
  unfold goto in H. cbn [t_name t_type t_atts att_nm att_val quot] in H. destruct (span_spaces r) as (k1 & r1 & -> & H1). rewrite loop_spaces in H by (cbn; auto).
  destruct H1 as [->|(c1 & r2 & -> & Hc1)]; [exfalso; revert H; apply no_accept; discriminate|]. cbn [loop step state] in H. unfold c_slash, c_space in H.
  destruct (Z.eqb_spec c1 47) as [->|N47].
  - unfold set_type in H. cbn [t_name t_type t_atts att_nm att_val quot] in H. destruct (span_spaces r2) as (k2 & r3 & -> & H2). rewrite loop_spaces in H by (cbn; auto).
    destruct H2 as [->|(c2 & r4 & -> & Hc2)]; [exfalso; revert H; apply no_accept; discriminate|]. cbn [loop step state] in H. unfold c_space in H.
    destruct (Z.eqb_spec c2 32); [congruence|]. cbn [negb] in H. unfold push_name in H. cbn [t_name t_type t_atts att_nm att_val quot app] in H.
    apply accepts3 in H as (nr & x & -> & R1 & R2 & R3 & HR). exists (Text k0 k1 (Some k2) (c2 :: nr) x). split.
    + split; [|exact HR]. exists c2, nr. cbn. repeat split; auto; discriminate.
    + unfold tag_text. cbn [lead gap1 slash name after_name app]. rewrite <- ?app_assoc. reflexivity.
  - destruct (Z.eqb_spec c1 32); [congruence|]. cbn [negb] in H. unfold push_name in H. cbn [t_name t_type t_atts att_nm att_val quot app] in H.
    apply accepts3 in H as (nr & x & -> & R1 & R2 & R3 & HR). exists (Text k0 k1 None (c1 :: nr) x). split.
    + split; [|exact HR]. exists c1, nr. cbn. repeat split; auto.
    + unfold tag_text. cbn [lead gap1 slash name after_name app]. reflexivity.
Qed.

Lemma read_tag_spec line : (exists x t, tag_ok x /\ tag_text x = line /\ read_tag line = Ok t) \/
  ((forall x, tag_ok x -> tag_text x <> line) /\ read_tag line = Abort).
Proof.
  unfold read_tag. destruct (parse_tag line) as [t|] eqn:E.
  - left. destruct (parse_sound line t E) as (x & H1 & H2). eauto.
  - right. split; [|reflexivity]. intros x Hx <-. rewrite (parse_text x Hx) in E. discriminate.
Qed.

Lemma self_closing_lost : exists t, parse_tag [60; 97; 47; 62] = Some t /\ type t = START.
Proof. eexists. split; reflexivity. Qed.
