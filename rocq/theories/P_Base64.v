From Verif Require Import Prelude M_Base64 S_Base64.
Local Open Scope Z_scope.

Lemma sweep (P : Z -> bool) n :
  forallb P (zrange n) = true -> forall x, 0 <= x < n -> P x = true.
Proof. intros H x Hx; rewrite forallb_forall in H; apply H, in_zrange, Hx. Qed.

Lemma sweep2 (P : Z -> Z -> bool) n m :
  forallb (fun x => forallb (P x) (zrange m)) (zrange n) = true ->
  forall x y, 0 <= x < n -> 0 <= y < m -> P x y = true.
Proof.
  intros H x y Hx Hy. pose proof (sweep _ _ H x Hx) as H'. simpl in H'.
  exact (sweep _ _ H' y Hy).
Qed.

Definition v2c (v : Z) : Z := match zget value_to_char v with Ok c => c | _ => -1 end.

Lemma v2c_ok v : 0 <= v < 64 -> zget value_to_char v = Ok (v2c v).
Proof.
  intros H. unfold v2c. destruct (zget_in_range value_to_char v) as (c & E).
  - change (zlen value_to_char) with 64. exact H.
  - rewrite E. reflexivity.
Qed.

Lemma v2c_char v : 0 <= v < 64 ->
  0 <= v2c v < 128 /\ is_alpha64 (v2c v) = true /\ zget char_to_value (v2c v) = Ok v.
Proof.
  intros H.
  assert (((0 <=? v2c v) && (v2c v <? 128) && is_alpha64 (v2c v) &&
          match zget char_to_value (v2c v) with Ok w => w =? v | _ => false end) = true) as Hs.
  { revert v H. apply sweep. vm_compute. reflexivity. }
  apply andb_prop in Hs as [Hs H4]. apply andb_prop in Hs as [Hs H3]. apply andb_prop in Hs as [H1 H2].
  split; [lia|]. split; [exact H3|].
  destruct (zget char_to_value (v2c v)); try discriminate. f_equal; lia.
Qed.

Lemma idx0 a : is_byte a -> 0 <= Z.shiftr a 2 < 64.
Proof. unfold is_byte; intros; rewrite Z.shiftr_div_pow2 by lia; change (2^2) with 4; lia. Qed.

Lemma idx1 a b : is_byte a -> is_byte b ->
  0 <= Z.lor (Z.land (Z.shiftl a 4) 48) (Z.shiftr b 4) < 64.
Proof.
  intros Ha Hb.
  assert (((0 <=? Z.lor (Z.land (Z.shiftl a 4) 48) (Z.shiftr b 4)) &&
          (Z.lor (Z.land (Z.shiftl a 4) 48) (Z.shiftr b 4) <? 64)) = true) as H; [|lia].
  revert a b Ha Hb. apply (sweep2 (fun a b => (0 <=? Z.lor (Z.land (Z.shiftl a 4) 48) (Z.shiftr b 4)) &&
          (Z.lor (Z.land (Z.shiftl a 4) 48) (Z.shiftr b 4) <? 64))). vm_compute. reflexivity.
Qed.

Lemma idx2 b c : is_byte b -> is_byte c ->
  0 <= Z.lor (Z.land (Z.shiftl b 2) 60) (Z.shiftr c 6) < 64.
Proof.
  intros Ha Hb.
  assert (((0 <=? Z.lor (Z.land (Z.shiftl b 2) 60) (Z.shiftr c 6)) &&
          (Z.lor (Z.land (Z.shiftl b 2) 60) (Z.shiftr c 6) <? 64)) = true) as H; [|lia].
  revert b c Ha Hb. apply (sweep2 (fun b c => (0 <=? Z.lor (Z.land (Z.shiftl b 2) 60) (Z.shiftr c 6)) &&
          (Z.lor (Z.land (Z.shiftl b 2) 60) (Z.shiftr c 6) <? 64))). vm_compute. reflexivity.
Qed.

Lemma idx3 c : is_byte c -> 0 <= Z.land c 63 < 64.
Proof. intros _. change 63 with (Z.ones 6). rewrite Z.land_ones by lia. change (2^6) with 64. lia. Qed.

(* the bit operations as numbers *)
Lemma dec0 a b : is_byte a -> is_byte b ->
  (Z.lor (Z.land (Z.shiftl (Z.shiftr a 2) 2) 252)
         (Z.land (Z.shiftr (Z.lor (Z.land (Z.shiftl a 4) 48) (Z.shiftr b 4)) 4) 3)) mod 256 = a.
Proof.
  intros Ha Hb. apply Z.eqb_eq. revert a b Ha Hb.
  apply (sweep2 (fun a b => (Z.lor (Z.land (Z.shiftl (Z.shiftr a 2) 2) 252)
         (Z.land (Z.shiftr (Z.lor (Z.land (Z.shiftl a 4) 48) (Z.shiftr b 4)) 4) 3)) mod 256 =? a)).
  vm_compute. reflexivity.
Qed.

Lemma dec1 a b c : is_byte a -> is_byte b -> is_byte c ->
  (Z.lor (Z.land (Z.shiftl (Z.lor (Z.land (Z.shiftl a 4) 48) (Z.shiftr b 4)) 4) 240)
         (Z.land (Z.shiftr (Z.lor (Z.land (Z.shiftl b 2) 60) (Z.shiftr c 6)) 2) 15)) mod 256 = b.
Proof.
  intros Ha Hb Hc.
  replace (Z.land (Z.shiftl (Z.lor (Z.land (Z.shiftl a 4) 48) (Z.shiftr b 4)) 4) 240)
    with (Z.land b 240).
  - replace (Z.land (Z.shiftr (Z.lor (Z.land (Z.shiftl b 2) 60) (Z.shiftr c 6)) 2) 15) with (Z.land b 15).
    + rewrite <- Z.land_lor_distr_r. change (Z.lor 240 15) with (Z.ones 8).
      rewrite Z.land_ones by lia. change (2^8) with 256. rewrite Z.mod_mod by lia.
      apply Z.mod_small; exact Hb.
    + symmetry. apply Z.eqb_eq. revert b c Hb Hc.
      apply (sweep2 (fun b c => Z.land (Z.shiftr (Z.lor (Z.land (Z.shiftl b 2) 60) (Z.shiftr c 6)) 2) 15 =? Z.land b 15)).
      vm_compute. reflexivity.
  - symmetry. apply Z.eqb_eq. revert a b Ha Hb.
    apply (sweep2 (fun a b => Z.land (Z.shiftl (Z.lor (Z.land (Z.shiftl a 4) 48) (Z.shiftr b 4)) 4) 240 =? Z.land b 240)).
    vm_compute. reflexivity.
Qed.

Lemma dec2 b c : is_byte b -> is_byte c ->
  (Z.lor (Z.land (Z.shiftl (Z.lor (Z.land (Z.shiftl b 2) 60) (Z.shiftr c 6)) 6) 192)
         (Z.land (Z.shiftr (Z.land c 63) 0) 63)) mod 256 = c.
Proof.
  intros Ha Hb. apply Z.eqb_eq. revert b c Ha Hb.
  apply (sweep2 (fun b c => (Z.lor (Z.land (Z.shiftl (Z.lor (Z.land (Z.shiftl b 2) 60) (Z.shiftr c 6)) 6) 192)
         (Z.land (Z.shiftr (Z.land c 63) 0) 63)) mod 256 =? c)).
  vm_compute. reflexivity.
Qed.

Definition group3 (a b c : Z) : list Z :=
  [v2c (Z.shiftr a 2); v2c (Z.lor (Z.land (Z.shiftl a 4) 48) (Z.shiftr b 4));
   v2c (Z.lor (Z.land (Z.shiftl b 2) 60) (Z.shiftr c 6)); v2c (Z.land c 63)].
Definition group2 (a b : Z) : list Z :=
  [v2c (Z.shiftr a 2); v2c (Z.lor (Z.land (Z.shiftl a 4) 48) (Z.shiftr b 4));
   v2c (Z.land (Z.shiftl b 2) 60); 61].
Definition group1 (a : Z) : list Z :=
  [v2c (Z.shiftr a 2); v2c (Z.land (Z.shiftl a 4) 48); 61; 61].

(* the structural encoder *)
Fixpoint enc (d : list Z) : list Z :=
  match d with
  | [] => []
  | [a] => group1 a
  | [a; b] => group2 a b
  | a :: b :: c :: d' => group3 a b c ++ enc d'
  end.

Lemma list3_ind (P : list Z -> Prop) :
  P [] -> (forall a, P [a]) -> (forall a b, P [a; b]) ->
  (forall a b c d, P d -> P (a :: b :: c :: d)) -> forall d, P d.
Proof.
  intros H0 H1 H2 H3.
  assert (forall d, P d /\ (forall a, P (a :: d)) /\ (forall a b, P (a :: b :: d))) as H; [|intros d; apply H].
  induction d as [|x d (Ha & Hb & Hc)].
  - repeat split; auto.
  - repeat split; auto.
Qed.

Lemma encode_3_ok d off a b c :
  zget d off = Ok a -> zget d (off + 1) = Ok b -> zget d (off + 2) = Ok c ->
  is_byte a -> is_byte b -> is_byte c ->
  encode_3 d off = Ok (group3 a b c).
Proof.
  intros E1 E2 E3 Ha Hb Hc. unfold encode_3. rewrite E1, E2, E3. cbn [bind].
  rewrite (v2c_ok _ (idx0 a Ha)), (v2c_ok _ (idx1 a b Ha Hb)), (v2c_ok _ (idx2 b c Hb Hc)), (v2c_ok _ (idx3 c Hc)).
  reflexivity.
Qed.

Lemma zget_S {A} (x : A) l i : 0 <= i -> zget (x :: l) (i + 1) = zget l i.
Proof.
  intros H. unfold zget. destruct (Z.ltb_spec (i + 1) 0), (Z.ltb_spec i 0); try lia.
  replace (Z.to_nat (i + 1)) with (S (Z.to_nat i)) by lia. reflexivity.
Qed.

Lemma zget_3 {A} (x y z : A) l i : 0 <= i -> zget (x :: y :: z :: l) (i + 3) = zget l i.
Proof.
  intros H. replace (i + 3) with (i + 1 + 1 + 1) by lia. rewrite !zget_S by lia. reflexivity.
Qed.
Lemma zget_4 {A} (x y z w : A) l i : 0 <= i -> zget (x :: y :: z :: w :: l) (i + 4) = zget l i.
Proof.
  intros H. replace (i + 4) with (i + 1 + 1 + 1 + 1) by lia. rewrite !zget_S by lia. reflexivity.
Qed.

Lemma encode_3_shift x y z d off : 0 <= off -> encode_3 (x :: y :: z :: d) (off + 3) = encode_3 d off.
Proof.
  intros H. unfold encode_3. rewrite zget_3 by lia.
  replace (off + 3 + 1) with (off + 1 + 3) by lia. replace (off + 3 + 2) with (off + 2 + 3) by lia.
  rewrite !zget_3 by lia. reflexivity.
Qed.
Lemma encode_2_shift x y z d off : 0 <= off -> encode_2 (x :: y :: z :: d) (off + 3) = encode_2 d off.
Proof.
  intros H. unfold encode_2. rewrite zget_3 by lia.
  replace (off + 3 + 1) with (off + 1 + 3) by lia.
  rewrite !zget_3 by lia. reflexivity.
Qed.
Lemma encode_1_shift x y z d off : 0 <= off -> encode_1 (x :: y :: z :: d) (off + 3) = encode_1 d off.
Proof.
  intros H. unfold encode_1. rewrite zget_3 by lia. reflexivity.
Qed.

Lemma encode_cons3 a b c d :
  encode (a :: b :: c :: d) =
  (g <- encode_3 (a :: b :: c :: d) 0 ;; t <- encode d ;; Ok (g ++ t)).
Proof.
  unfold encode. rewrite !zlen_cons.
  replace ((zlen d + 1 + 1 + 1) / 3) with (zlen d / 3 + 1) by lia.
  replace ((zlen d + 1 + 1 + 1) mod 3) with (zlen d mod 3) by lia.
  pose proof (zlen_nonneg d) as Hn.
  rewrite (zrange_split_0 (zlen d / 3 + 1)) by lia.
  cbn [mapM]. change (0 * 3) with 0.
  destruct (encode_3 (a :: b :: c :: d) 0) as [g| |]; cbn [bind]; auto.
  rewrite mapM_map. replace (zlen d / 3 + 1 - 1) with (zlen d / 3) by lia.
  rewrite (mapM_ext _ (fun i => encode_3 d (i * 3))).
  - destruct (mapM (fun i => encode_3 d (i * 3)) (zrange (zlen d / 3))) as [gs| |]; cbn [bind]; auto.
    replace ((zlen d / 3 + 1) * 3) with (zlen d / 3 * 3 + 3) by lia.
    destruct (zlen d mod 3 =? 0).
    + cbn [bind concat]. rewrite app_assoc. reflexivity.
    + rewrite encode_1_shift, encode_2_shift by lia.
      destruct (zlen d mod 3 =? 1); [destruct (encode_1 d _)|destruct (encode_2 d _)]; cbn [bind concat]; auto;
        rewrite app_assoc; reflexivity.
  - intros i Hi. apply in_zrange in Hi.
    replace ((i + 1) * 3) with (i * 3 + 3) by lia. apply encode_3_shift; lia.
Qed.

Lemma encode_enc d : Forall is_byte d -> encode d = Ok (enc d).
Proof.
  revert d. apply (list3_ind (fun d => Forall is_byte d -> encode d = Ok (enc d))).
  - intros _; reflexivity.
  - intros a Hd. inversion Hd as [|? ? Ha _]; subst.
    change (encode [a]) with (tl <- encode_1 [a] 0 ;; Ok ([] ++ tl)).
    unfold encode_1. change (zget [a] 0) with (Ok a). cbn [bind].
    rewrite (v2c_ok _ (idx0 a Ha)).
    assert (0 <= Z.land (Z.shiftl a 4) 48 < 64) as Hi.
    { pose proof (idx1 a 0 Ha ltac:(unfold is_byte; lia)) as H. change (Z.shiftr 0 4) with 0 in H.
      rewrite Z.lor_0_r in H. exact H. }
    rewrite (v2c_ok _ Hi). reflexivity.
  - intros a b Hd. inversion Hd as [|? ? Ha Hd']; subst. inversion Hd' as [|? ? Hb _]; subst.
    change (encode [a; b]) with (tl <- encode_2 [a; b] 0 ;; Ok ([] ++ tl)).
    unfold encode_2. change (zget [a;b] 0) with (Ok a). change (zget [a;b] (0+1)) with (Ok b). cbn [bind].
    rewrite (v2c_ok _ (idx0 a Ha)), (v2c_ok _ (idx1 a b Ha Hb)).
    assert (0 <= Z.land (Z.shiftl b 2) 60 < 64) as Hi.
    { pose proof (idx2 b 0 Hb ltac:(unfold is_byte; lia)) as H. change (Z.shiftr 0 6) with 0 in H.
      rewrite Z.lor_0_r in H. exact H. }
    rewrite (v2c_ok _ Hi). reflexivity.
  - intros a b c d IH Hd.
    inversion Hd as [|? ? Ha Hd1]; subst. inversion Hd1 as [|? ? Hb Hd2]; subst. inversion Hd2 as [|? ? Hc Hd3]; subst.
    rewrite encode_cons3. rewrite (encode_3_ok _ 0 a b c); try reflexivity; try assumption.
    cbn [bind]. rewrite (IH Hd3). reflexivity.
Qed.

Lemma zlen_enc d : zlen (enc d) = encoded_size (zlen d).
Proof.
  revert d. apply (list3_ind (fun d => zlen (enc d) = encoded_size (zlen d))); try reflexivity.
  intros a b c d IH. change (enc (a :: b :: c :: d)) with (group3 a b c ++ enc d).
  rewrite zlen_app, IH, !zlen_cons. change (zlen (group3 a b c)) with 4.
  unfold encoded_size.
  replace ((zlen d + 1 + 1 + 1) / 3) with (zlen d / 3 + 1) by lia.
  replace ((zlen d + 1 + 1 + 1) mod 3) with (zlen d mod 3) by lia.
  destruct (zlen d mod 3 =? 0); lia.
Qed.

Lemma alpha_text c : is_alpha64 c = true -> is_text64 c = true.
Proof. unfold is_text64; intros ->; reflexivity. Qed.

Lemma enc_text d : Forall is_byte d -> Forall (fun c => is_text64 c = true) (enc d).
Proof.
  revert d. apply (list3_ind (fun d => Forall is_byte d -> Forall (fun c => is_text64 c = true) (enc d))).
  - constructor.
  - intros a Hd. inversion Hd as [|? ? Ha _]; subst. cbn [enc group1].
    repeat constructor; apply alpha_text, v2c_char; [apply idx0; exact Ha|].
    pose proof (idx1 a 0 Ha ltac:(unfold is_byte; lia)) as H. change (Z.shiftr 0 4) with 0 in H.
    rewrite Z.lor_0_r in H. exact H.
  - intros a b Hd. inversion Hd as [|? ? Ha Hd']; subst. inversion Hd' as [|? ? Hb _]; subst. cbn [enc group2].
    repeat constructor; apply alpha_text, v2c_char; [apply idx0; exact Ha|apply idx1; assumption|].
    pose proof (idx2 b 0 Hb ltac:(unfold is_byte; lia)) as H. change (Z.shiftr 0 6) with 0 in H.
    rewrite Z.lor_0_r in H. exact H.
  - intros a b c d IH Hd.
    inversion Hd as [|? ? Ha Hd1]; subst. inversion Hd1 as [|? ? Hb Hd2]; subst. inversion Hd2 as [|? ? Hc Hd3]; subst.
    cbn [enc]. apply Forall_app. split; [|apply IH; exact Hd3].
    repeat constructor; apply alpha_text, v2c_char;
      [apply idx0; exact Ha|apply idx1; assumption|apply idx2; assumption|apply idx3; assumption].
Qed.

(* decoding *)
Lemma decode_char_v2c t i v : 0 <= v < 64 -> zget t i = Ok (v2c v) -> decode_char t i = Ok v.
Proof.
  intros Hv E. unfold decode_char. rewrite E. cbn [bind].
  destruct (v2c_char v Hv) as (Hr & _ & Hc). unfold to_unsigned.
  destruct (Z.ltb_spec (v2c v) 128); [|lia]. rewrite Hc. cbn [bind].
  unfold check. destruct (Z.ltb_spec v 64); [reflexivity | lia].
Qed.
Lemma decode_char_pad t i : zget t i = Ok 61 -> decode_char t i = Ok 0.
Proof. intros E. unfold decode_char. rewrite E. reflexivity. Qed.

Lemma decode_4_shift x y z w t off n :
  0 <= off -> decode_4 (x :: y :: z :: w :: t) (off + 4) n = decode_4 t off n.
Proof.
  intros H. unfold decode_4, decode_char.
  replace (off + 4 + 1) with (off + 1 + 4) by lia.
  replace (off + 4 + 2) with (off + 2 + 4) by lia.
  replace (off + 4 + 3) with (off + 3 + 4) by lia.
  rewrite !zget_4 by lia. reflexivity.
Qed.

Lemma decode_cons4 x y z w t n : 3 <= n ->
  decode (x :: y :: z :: w :: t) n =
  (g <- decode_4 (x :: y :: z :: w :: t) 0 3 ;; r <- decode t (n - 3) ;; Ok (g ++ r)).
Proof.
  intros Hn. unfold decode.
  replace ((n - 3) / 3) with (n / 3 - 1) by lia.
  replace ((n - 3) mod 3) with (n mod 3) by lia.
  rewrite (zrange_split_0 (n / 3)) by lia. cbn [mapM]. change (0 * 4) with 0.
  destruct (decode_4 _ 0 3) as [g| |]; cbn [bind]; auto.
  rewrite mapM_map.
  rewrite (mapM_ext _ (fun i => decode_4 t (i * 4) 3)).
  - destruct (mapM _ _) as [gs| |]; cbn [bind]; auto.
    destruct (n mod 3 =? 0); cbn [bind concat].
    + rewrite app_assoc; reflexivity.
    + replace (n / 3 * 4) with ((n / 3 - 1) * 4 + 4) by lia.
      rewrite decode_4_shift by lia.
      destruct (decode_4 t _ _); cbn [bind]; auto. rewrite app_assoc; reflexivity.
  - intros i Hi. apply in_zrange in Hi.
    replace ((i + 1) * 4) with (i * 4 + 4) by lia. apply decode_4_shift; lia.
Qed.

Lemma decode_enc d rest : Forall is_byte d -> decode (enc d ++ rest) (zlen d) = Ok d.
Proof.
  revert d. apply (list3_ind (fun d => Forall is_byte d -> decode (enc d ++ rest) (zlen d) = Ok d)).
  - intros _; reflexivity.
  - intros a Hd. inversion Hd as [|? ? Ha _]; subst.
    change (decode (enc [a] ++ rest) (zlen [a])) with (tl <- decode_4 (group1 a ++ rest) 0 1 ;; Ok ([] ++ tl)).
    assert (is_byte 0) as H0 by (unfold is_byte; lia).
    assert (0 <= Z.land (Z.shiftl a 4) 48 < 64) as Hi.
    { pose proof (idx1 a 0 Ha H0) as H. change (Z.shiftr 0 4) with 0 in H.
      rewrite Z.lor_0_r in H. exact H. }
    unfold decode_4.
    rewrite (decode_char_v2c _ 0 _ (idx0 a Ha)) by reflexivity. cbn [bind].
    rewrite (decode_char_v2c _ (0+1) _ Hi) by reflexivity. cbn [bind].
    rewrite (decode_char_pad _ (0+2)) by reflexivity. rewrite (decode_char_pad _ (0+3)) by reflexivity.
    cbn [bind app]. change (1 <? 2) with true. cbn [bind app]. do 2 f_equal.
    pose proof (dec0 a 0 Ha H0) as H. change (Z.shiftr 0 4) with 0 in H. rewrite Z.lor_0_r in H. exact H.
  - intros a b Hd. inversion Hd as [|? ? Ha Hd']; subst. inversion Hd' as [|? ? Hb _]; subst.
    change (decode (enc [a; b] ++ rest) (zlen [a; b])) with (tl <- decode_4 (group2 a b ++ rest) 0 2 ;; Ok ([] ++ tl)).
    assert (is_byte 0) as H0 by (unfold is_byte; lia).
    assert (0 <= Z.land (Z.shiftl b 2) 60 < 64) as Hi.
    { pose proof (idx2 b 0 Hb H0) as H. change (Z.shiftr 0 6) with 0 in H.
      rewrite Z.lor_0_r in H. exact H. }
    unfold decode_4.
    rewrite (decode_char_v2c _ 0 _ (idx0 a Ha)) by reflexivity. cbn [bind].
    rewrite (decode_char_v2c _ (0+1) _ (idx1 a b Ha Hb)) by reflexivity. cbn [bind].
    rewrite (decode_char_v2c _ (0+2) _ Hi) by reflexivity. rewrite (decode_char_pad _ (0+3)) by reflexivity.
    cbn [bind app]. change (2 <? 2) with false. change (2 <? 3) with true. cbn [bind app]. f_equal. f_equal.
    + apply dec0; assumption.
    + f_equal. pose proof (dec1 a b 0 Ha Hb H0) as H. change (Z.shiftr 0 6) with 0 in H. rewrite Z.lor_0_r in H. exact H.
  - intros a b c d IH Hd.
    inversion Hd as [|? ? Ha Hd1]; subst. inversion Hd1 as [|? ? Hb Hd2]; subst. inversion Hd2 as [|? ? Hc Hd3]; subst.
    change (enc (a :: b :: c :: d) ++ rest) with
      (v2c (Z.shiftr a 2) :: v2c (Z.lor (Z.land (Z.shiftl a 4) 48) (Z.shiftr b 4)) ::
       v2c (Z.lor (Z.land (Z.shiftl b 2) 60) (Z.shiftr c 6)) :: v2c (Z.land c 63) :: (enc d ++ rest)).
    pose proof (zlen_nonneg d). rewrite !zlen_cons.
    rewrite decode_cons4 by lia. replace (zlen d + 1 + 1 + 1 - 3) with (zlen d) by lia.
    rewrite (IH Hd3). unfold decode_4.
    rewrite (decode_char_v2c _ 0 _ (idx0 a Ha)) by reflexivity. cbn [bind].
    rewrite (decode_char_v2c _ (0+1) _ (idx1 a b Ha Hb)) by reflexivity. cbn [bind].
    rewrite (decode_char_v2c _ (0+2) _ (idx2 b c Hb Hc)) by reflexivity.
    rewrite (decode_char_v2c _ (0+3) _ (idx3 c Hc)) by reflexivity.
    cbn [bind app]. change (3 <? 2) with false. change (3 <? 3) with false. cbn [bind app].
    rewrite dec0, dec1, dec2 by assumption. reflexivity.
Qed.

(* read_encoded *)
Lemma c2v_table c : 0 <= c < 256 ->
  zget char_to_value c = Ok (if is_text64 c then value64 c else 255).
Proof.
  intros H.
  assert (match zget char_to_value c with Ok v => v =? (if is_text64 c then value64 c else 255) | _ => false end = true) as Hs.
  { revert c H. apply sweep. vm_compute. reflexivity. }
  destruct (zget char_to_value c); try discriminate. f_equal. apply Z.eqb_eq, Hs.
Qed.

Lemma text64_range c : is_text64 c = true -> 0 <= c < 128 /\ 0 <= value64 c < 64.
Proof.
  unfold is_text64, is_alpha64, value64; intros H.
  repeat match goal with |- context [if ?b then _ else _] => destruct b eqn:? end; lia.
Qed.

Lemma read_encoded_app t rest :
  Forall (fun c => is_text64 c = true) t ->
  read_encoded (t ++ rest) = ('(o, r) <- read_encoded rest ;; Ok (t ++ o, r)).
Proof.
  induction 1 as [|c t Hc Ht IH].
  - cbn [app]. destruct (read_encoded rest) as [[o r]| |]; reflexivity.
  - cbn [app read_encoded]. destruct (text64_range c Hc) as [H1 H2].
    destruct ((c <? 0) || (c >? 127)) eqn:E; [lia|].
    rewrite c2v_table by lia. rewrite Hc. cbn [bind].
    destruct (value64 c >? 63) eqn:E2; [lia|]. rewrite IH.
    destruct (read_encoded rest) as [[o r]| |]; reflexivity.
Qed.

Lemma read_encoded_stop c rest : is_byte c -> is_text64 c = false ->
  read_encoded (c :: rest) = Ok ([], rest).
Proof.
  intros Hb Hc. cbn [read_encoded]. unfold is_byte in Hb. destruct ((c <? 0) || (c >? 127)); [reflexivity|].
  rewrite c2v_table by lia. rewrite Hc. reflexivity.
Qed.

Lemma read_encoded_enc d c rest : Forall is_byte d -> is_byte c -> is_text64 c = false ->
  read_encoded (enc d ++ c :: rest) = Ok (enc d, rest).
Proof.
  intros Hd Hb Hc. rewrite read_encoded_app by (apply enc_text; exact Hd).
  rewrite read_encoded_stop by assumption. cbn. rewrite app_nil_r. reflexivity.
Qed.

(* decoding arbitrary text *)
Lemma decode_char_cases t i : Forall (fun c => 0 <= c < 128) t -> 0 <= i < zlen t ->
  exists c, zget t i = Ok c /\
  decode_char t i = if is_text64 c then Ok (value64 c) else Abort.
Proof.
  intros Ht Hi. destruct (zget_in_range t i Hi) as (c & E). exists c; split; [exact E|].
  unfold decode_char. rewrite E. cbn [bind].
  pose proof (zget_In _ _ _ E) as Hin. rewrite Forall_forall in Ht. specialize (Ht c Hin).
  unfold to_unsigned. destruct (Z.ltb_spec c 128); [|lia].
  rewrite c2v_table by lia. cbn [bind]. destruct (is_text64 c) eqn:Ec.
  - destruct (text64_range c Ec). unfold check. destruct (Z.ltb_spec (value64 c) 64); [reflexivity|lia].
  - reflexivity.
Qed.

Lemma sweep64 (P : Z -> Z -> bool) :
  forallb (fun x => forallb (P x) (zrange 64)) (zrange 64) = true ->
  forall x y, 0 <= x < 64 -> 0 <= y < 64 -> P x y = true.
Proof. apply sweep2. Qed.

Lemma bits0 v0 v1 : 0 <= v0 < 64 -> 0 <= v1 < 64 ->
  Z.lor (Z.land (Z.shiftl v0 2) 252) (Z.land (Z.shiftr v1 4) 3) mod 256 = v0 * 4 + v1 / 16.
Proof.
  intros H0 H1. apply Z.eqb_eq. revert v0 v1 H0 H1.
  apply (sweep64 (fun v0 v1 => Z.lor (Z.land (Z.shiftl v0 2) 252) (Z.land (Z.shiftr v1 4) 3) mod 256 =? v0 * 4 + v1 / 16)).
  vm_compute; reflexivity.
Qed.
Lemma bits1 v0 v1 : 0 <= v0 < 64 -> 0 <= v1 < 64 ->
  Z.lor (Z.land (Z.shiftl v0 4) 240) (Z.land (Z.shiftr v1 2) 15) mod 256 = (v0 mod 16) * 16 + v1 / 4.
Proof.
  intros H0 H1. apply Z.eqb_eq. revert v0 v1 H0 H1.
  apply (sweep64 (fun v0 v1 => Z.lor (Z.land (Z.shiftl v0 4) 240) (Z.land (Z.shiftr v1 2) 15) mod 256 =? (v0 mod 16) * 16 + v1 / 4)).
  vm_compute; reflexivity.
Qed.
Lemma bits2 v0 v1 : 0 <= v0 < 64 -> 0 <= v1 < 64 ->
  Z.lor (Z.land (Z.shiftl v0 6) 192) (Z.land (Z.shiftr v1 0) 63) mod 256 = (v0 mod 4) * 64 + v1.
Proof.
  intros H0 H1. apply Z.eqb_eq. revert v0 v1 H0 H1.
  apply (sweep64 (fun v0 v1 => Z.lor (Z.land (Z.shiftl v0 6) 192) (Z.land (Z.shiftr v1 0) 63) mod 256 =? (v0 mod 4) * 64 + v1)).
  vm_compute; reflexivity.
Qed.

Lemma decode_4_text a b c d t n :
  0 <= n <= 3 -> n <> 0 ->
  Forall (fun c => 0 <= c < 128) [a; b; c; d] ->
  decode_4 (a :: b :: c :: d :: t) 0 n =
  if forallb is_text64 [a; b; c; d] then Ok (firstn (Z.to_nat n) (denote [a; b; c; d])) else Abort.
Proof.
  intros Hn Hn0 Ht.
  inversion Ht as [|? ? Ha H1]; subst. inversion H1 as [|? ? Hb H2]; subst.
  inversion H2 as [|? ? Hc H3]; subst. inversion H3 as [|? ? Hd _]; subst.
  assert (forall i x, zget (a :: b :: c :: d :: t) i = Ok x -> 0 <= x < 128 ->
    decode_char (a :: b :: c :: d :: t) i = if is_text64 x then Ok (value64 x) else Abort) as Hdc.
  { intros i x E Hx. unfold decode_char. rewrite E. cbn [bind]. unfold to_unsigned.
    destruct (Z.ltb_spec x 128); [|lia]. rewrite c2v_table by lia. cbn [bind].
    destruct (is_text64 x) eqn:Ex; [|reflexivity].
    destruct (text64_range x Ex). unfold check. destruct (Z.ltb_spec (value64 x) 64); [reflexivity|lia]. }
  unfold decode_4.
  rewrite (Hdc 0 a), (Hdc (0+1) b), (Hdc (0+2) c), (Hdc (0+3) d) by (reflexivity || assumption).
  cbn [forallb].
  destruct (is_text64 a) eqn:Ea; [|reflexivity]. destruct (is_text64 b) eqn:Eb; [|reflexivity].
  destruct (is_text64 c) eqn:Ec; [|reflexivity]. destruct (is_text64 d) eqn:Ed; [|reflexivity].
  cbn [bind andb].
  pose proof (proj2 (text64_range a Ea)) as Va. pose proof (proj2 (text64_range b Eb)) as Vb.
  pose proof (proj2 (text64_range c Ec)) as Vc. pose proof (proj2 (text64_range d Ed)) as Vd.
  rewrite bits0, bits1, bits2 by assumption.
  cbn [denote].
  generalize dependent (value64 a). generalize dependent (value64 b).
  generalize dependent (value64 c). generalize dependent (value64 d).
  intros vd Hvd vc Hvc vb Hvb va Hva.
  assert ((va * 262144 + vb * 4096 + vc * 64 + vd) / 65536 = va * 4 + vb / 16) as -> by lia.
  assert (((va * 262144 + vb * 4096 + vc * 64 + vd) / 256) mod 256 = (vb mod 16) * 16 + vc / 4) as -> by lia.
  assert ((va * 262144 + vb * 4096 + vc * 64 + vd) mod 256 = (vc mod 4) * 64 + vd) as -> by lia.
  assert (n = 1 \/ n = 2 \/ n = 3) as [-> | [-> | ->]] by lia; reflexivity.
Qed.

Lemma denote4 a b c d t : denote (a :: b :: c :: d :: t) = denote [a; b; c; d] ++ denote t.
Proof. reflexivity. Qed.

Lemma encoded_size_small n : 0 <= n -> encoded_size n <= 3 -> n = 0.
Proof.
  unfold encoded_size. destruct (n mod 3 =? 0) eqn:E; lia.
Qed.

Lemma encoded_size_sub n : 3 <= n -> encoded_size n = encoded_size (n - 3) + 4.
Proof.
  intros. unfold encoded_size. replace ((n - 3) / 3) with (n / 3 - 1) by lia.
  replace ((n - 3) mod 3) with (n mod 3) by lia. destruct (n mod 3 =? 0); lia.
Qed.

Lemma encoded_size_nonneg n : 0 <= n -> 0 <= encoded_size n.
Proof. unfold encoded_size. destruct (n mod 3 =? 0); lia. Qed.

Lemma decode_text k : forall n t, n <= Z.of_nat k -> 0 <= n -> encoded_size n <= zlen t ->
  Forall (fun c => 0 <= c < 128) t ->
  decode t n =
  if forallb is_text64 (firstn (Z.to_nat (encoded_size n)) t)
  then Ok (firstn (Z.to_nat n) (denote t)) else Abort.
Proof.
  induction k as [|k IH]; intros n t Hk Hn Hlen Ht.
  - replace n with 0 by lia. reflexivity.
  - destruct (Z.eq_dec n 0) as [->|Hn0]; [reflexivity|].
    destruct t as [|a [|b [|c [|d t]]]]; rewrite ?zlen_cons, ?zlen_nil in Hlen;
      try (pose proof (encoded_size_small n Hn); lia).
    assert (Forall (fun c => 0 <= c < 128) [a; b; c; d] /\ Forall (fun c => 0 <= c < 128) t) as [Hg Ht'].
    { change (a :: b :: c :: d :: t) with ([a; b; c; d] ++ t) in Ht. apply Forall_app in Ht. exact Ht. }
    destruct (Z.le_gt_cases 3 n) as [H3|H3].
    + rewrite decode_cons4 by exact H3. rewrite decode_4_text by (lia || assumption).
      rewrite IH by (try assumption; try lia; pose proof (encoded_size_sub n H3); lia).
      rewrite (encoded_size_sub n H3). pose proof (encoded_size_nonneg (n - 3) ltac:(lia)).
      replace (Z.to_nat (encoded_size (n - 3) + 4)) with (4 + Z.to_nat (encoded_size (n - 3)))%nat by lia.
      change (firstn (4 + Z.to_nat (encoded_size (n - 3))) (a :: b :: c :: d :: t)) with
        ([a; b; c; d] ++ firstn (Z.to_nat (encoded_size (n - 3))) t).
      rewrite forallb_app. destruct (forallb is_text64 [a; b; c; d]); [|reflexivity]. cbn [bind andb].
      destruct (forallb is_text64 (firstn _ t)); [|reflexivity]. cbn [bind].
      rewrite denote4. replace (Z.to_nat n) with (3 + Z.to_nat (n - 3))%nat by lia. reflexivity.
    + assert (encoded_size n = 4) as ->.
      { assert (n = 1 \/ n = 2) as [-> | ->] by lia; reflexivity. }
      change (firstn (Z.to_nat 4) (a :: b :: c :: d :: t)) with [a; b; c; d].
      assert (decode (a :: b :: c :: d :: t) n = (g <- decode_4 (a :: b :: c :: d :: t) 0 n ;; Ok g)) as ->.
      { assert (n = 1 \/ n = 2) as [-> | ->] by lia; reflexivity. }
      rewrite decode_4_text by (lia || assumption).
      destruct (forallb is_text64 [a; b; c; d]); [|reflexivity]. cbn [bind]. f_equal.
      assert (n = 1 \/ n = 2) as [-> | ->] by lia; reflexivity.
Qed.

Lemma decode_text_all n t : 0 <= n -> encoded_size n <= zlen t ->
  Forall (fun c => 0 <= c < 128) t ->
  decode t n =
  if forallb is_text64 (firstn (Z.to_nat (encoded_size n)) t)
  then Ok (firstn (Z.to_nat n) (denote t)) else Abort.
Proof. intros. apply (decode_text (Z.to_nat n)); lia || assumption. Qed.

Lemma encode_decode_all : forall bytes rest,
  Forall is_byte bytes ->
  exists text, encode bytes = Ok text /\
    zlen text = encoded_size (zlen bytes) /\
    Forall (fun c => is_text64 c = true) text /\
    decode (text ++ rest) (zlen bytes) = Ok bytes.
Proof.
  intros bytes rest H. exists (enc bytes).
  split; [apply encode_enc, H|]. split; [apply zlen_enc|]. split; [apply enc_text, H|apply decode_enc, H].
Qed.

Lemma stream_roundtrip_all : forall bytes stop rest,
  Forall is_byte bytes -> is_byte stop -> is_text64 stop = false ->
  exists text, encode bytes = Ok text /\
    read_encoded (text ++ stop :: rest) = Ok (text, rest) /\
    decode text (zlen bytes) = Ok bytes.
Proof.
  intros bytes stop rest H Hb Hs. exists (enc bytes).
  split; [apply encode_enc, H|]. split; [apply read_encoded_enc; assumption|].
  rewrite <- (app_nil_r (enc bytes)). apply decode_enc, H.
Qed.

Lemma decode_high_bit_ub :
  exists text size, Forall is_byte text /\ encoded_size size <= zlen text /\ decode text size = UB.
Proof.
  exists [200; 65; 65; 65], 3. split; [repeat constructor; unfold is_byte; lia|].
  split; [vm_compute; discriminate|reflexivity].
Qed.

Lemma decode_short_ub :
  exists text size, Forall (fun c => is_text64 c = true) text /\ decode text size = UB.
Proof. exists [65; 65], 1. split; [repeat constructor|reflexivity]. Qed.
