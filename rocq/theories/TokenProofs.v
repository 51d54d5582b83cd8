(** The token word: what the parser writes (mkToken) and what the navigator
    reads back. *)
From Verif Require Import Lib Buffer ParserPrim Nav SpecToken.

Lemma mask_field v m s n : 0 <= s -> 0 <= n -> m = Z.shiftl (Z.ones n) s ->
  Z.shiftr (Z.land v m) s = (v / 2^s) mod 2^n.
Proof.
  intros Hs Hn ->. rewrite land_field by lia. rewrite Z.shiftr_div_pow2 by lia.
  apply Z.div_mul. pose proof (Z.pow_pos_nonneg 2 s). lia.
Qed.

Lemma field_type_range v : 0 <= field_type v < 16.
Proof. unfold field_type, unsigned64. pose proof (Z.mod_pos_bound v (2^64) ltac:(lia)). lia. Qed.
Lemma field_depth_range v : 0 <= field_depth v < 256.
Proof. apply Z.mod_pos_bound. lia. Qed.
Lemma field_length_range v : 0 <= field_length v < 2^20.
Proof. apply Z.mod_pos_bound. lia. Qed.
Lemma field_offset_range v : 0 <= field_offset v < 2^32.
Proof. apply Z.mod_pos_bound. lia. Qed.

(** ** Reading *)
Lemma tokType_field v : tokType v = field_type v.
Proof.
  unfold tokType. rewrite (mask_field _ _ 60 4) by (lia || reflexivity).
  change (u64 v) with (unsigned64 v). fold (field_type v). pose proof (field_type_range v).
  rewrite (Z.mod_small (field_type v)) by lia. rewrite wrap32_id by lia.
  change 0xF with (Z.ones 4). rewrite Z.land_ones by lia. apply Z.mod_small; lia.
Qed.
Lemma tokOffset_field v : tokOffset v = field_offset v mod 2^30.
Proof.
  unfold tokOffset, MaskTokenOffset, field_offset. change 0x3FFFFFFF with (Z.ones 30). rewrite Z.land_ones by lia.
  change (u64 v) with (unsigned64 v). rewrite wrap32_id.
  - set (x := unsigned64 v). lia.
  - pose proof (Z.mod_pos_bound (unsigned64 v) (2^30) ltac:(lia)). lia.
Qed.
Lemma tokDepth_field v : tokDepth v = if field_depth v =? 255 then -1 else field_depth v.
Proof.
  unfold tokDepth. rewrite (mask_field _ _ 52 8) by (lia || reflexivity).
  change (u64 v) with (unsigned64 v). fold (field_depth v). pose proof (field_depth_range v).
  destruct (field_depth v =? 255); [reflexivity|]. apply wrap32_id. lia.
Qed.
Lemma tokFullLen_field v : tokFullLen v = field_length v.
Proof. unfold tokFullLen. rewrite (mask_field _ _ 32 20) by (lia || reflexivity). reflexivity. Qed.
Lemma tokQnLen_field v : tokQnLen v = field_name_length v.
Proof.
  unfold tokQnLen. rewrite (mask_field _ _ 32 11) by (lia || reflexivity).
  unfold field_name_length, field_length. change (u64 v) with (unsigned64 v).
  set (x := unsigned64 v / 2^32). lia.
Qed.
Lemma tokPreLen_field v : tokPreLen v = field_prefix_length v * 2^16.
Proof.
  unfold tokPreLen. change MaskTokenPreLength with (Z.shiftl (Z.ones 9) 43). rewrite land_field by lia.
  change (u64 v) with (unsigned64 v).
  assert (E : unsigned64 v / 2^43 mod 2^9 = field_prefix_length v).
  { unfold field_prefix_length, field_length. set (x := unsigned64 v).
    change (2^43) with (2^32 * 2^11). rewrite <- Z.div_div by lia. set (y := x / 2^32). lia. }
  rewrite E. assert (0 <= field_prefix_length v < 2^9).
  { unfold field_prefix_length. pose proof (field_length_range v). lia. }
  rewrite Z.shiftr_div_pow2 by lia.
  replace (field_prefix_length v * 2^43) with (field_prefix_length v * 2^11 * 2^32) by ring.
  rewrite Z.div_mul by lia. rewrite Z.shiftl_mul_pow2 by lia.
  unfold u64. rewrite Z.mod_small by lia. ring.
Qed.
Lemma name_len_fields v : 0 <= field_name_length v < 2^11 /\ 0 <= field_prefix_length v < 2^9.
Proof. unfold field_name_length, field_prefix_length. pose proof (field_length_range v). lia. Qed.

(** ** Writing *)
Lemma mkToken_word t o l d : 0 <= t < 16 -> 0 <= l < 2^20 -> 0 <= o < 2^32 ->
  unsigned64 (mkToken t o l d) = t * 2^60 + (d mod 256) * 2^52 + l * 2^32 + o.
Proof.
  intros Ht Hl Ho. unfold mkToken.
  change 255 with (Z.ones 8). rewrite Z.land_ones by lia. change (2^8) with 256.
  pose proof (Z.mod_pos_bound d 256 ltac:(lia)) as Hd. set (e := d mod 256) in *.
  rewrite !Z.shiftl_mul_pow2 by lia.
  replace (t * 2^28) with (t * 2^8 * 2^20) by ring.
  assert (E1 : Z.lor (t * 2^8 * 2^20) (e * 2^20) = (t * 2^8 + e) * 2^20).
  { rewrite <- !Z.shiftl_mul_pow2 with (n := 20) by lia. rewrite <- Z.shiftl_lor.
    rewrite lor_disjoint by lia. reflexivity. }
  rewrite E1. rewrite lor_disjoint by lia.
  set (x := (t * 2^8 + e) * 2^20 + l).
  assert (Hx : 0 <= x < 2^32) by (unfold x; lia).
  unfold shl64. rewrite Z.shiftl_mul_pow2 by lia.
  assert (E2 : wrap64 (x * 2^32) = (if x <? 2^31 then x else x - 2^32) * 2^32).
  { destruct (x <? 2^31) eqn:E.
    - apply wrap64_id. lia.
    - unfold wrap64. replace (x * 2^32 + 2^63) with ((x * 2^32 - 2^63) + 1 * 2^64) by ring.
      rewrite Z.mod_add by lia. rewrite Z.mod_small by lia. lia. }
  rewrite E2. rewrite lor_disjoint by lia. unfold unsigned64.
  destruct (x <? 2^31) eqn:E.
  - rewrite Z.mod_small by lia. unfold x. ring.
  - replace ((x - 2^32) * 2^32 + o) with ((x * 2^32 + o) + (-1) * 2^64) by ring.
    rewrite Z.mod_add by lia. rewrite Z.mod_small by lia. unfold x. ring.
Qed.
Lemma mkToken_fields t o l d : 0 <= t < 16 -> 0 <= l < 2^20 -> 0 <= o < 2^32 ->
  field_type (mkToken t o l d) = t /\ field_depth (mkToken t o l d) = d mod 256 /\
  field_length (mkToken t o l d) = l /\ field_offset (mkToken t o l d) = o.
Proof.
  intros Ht Hl Ho. pose proof (Z.mod_pos_bound d 256 ltac:(lia)) as Hd.
  unfold field_type, field_depth, field_length, field_offset. rewrite mkToken_word by assumption.
  set (e := d mod 256) in *. repeat split.
  - symmetry. apply Z.div_unique with (e * 2^52 + l * 2^32 + o); lia.
  - replace (t * 2^60 + e * 2^52 + l * 2^32 + o) with ((l * 2^32 + o) + (t * 256 + e) * 2^52) by ring.
    rewrite Z.div_add by lia. rewrite (Z.div_small (l * 2^32 + o)) by lia. lia.
  - replace (t * 2^60 + e * 2^52 + l * 2^32 + o) with (o + ((t * 256 + e) * 2^20 + l) * 2^32) by ring.
    rewrite Z.div_add by lia. rewrite (Z.div_small o) by lia. lia.
  - lia.
Qed.
(** The length field of a name token. *)
Lemma name_len_word p q : 0 <= p < 2^9 -> 0 <= q < 2^11 ->
  Z.lor (shl64 p 11) q = p * 2^11 + q.
Proof. intros. rewrite shl64_mul by lia. apply lor_disjoint; lia. Qed.
Lemma lor_bound a b n : 0 <= n -> 0 <= a < 2^n -> 0 <= b < 2^n -> 0 <= Z.lor a b < 2^n.
Proof.
  intros Hn Ha Hb. split; [apply Z.lor_nonneg; lia|].
  destruct (Z.eq_dec (Z.lor a b) 0) as [->|N]; [lia|].
  apply Z.log2_lt_pow2; [pose proof (proj2 (Z.lor_nonneg a b)); lia|].
  rewrite Z.log2_lor by lia.
  apply Z.max_lub_lt.
  - destruct (Z.eq_dec a 0) as [->|]; [cbn; destruct (Z.eq_dec n 0); [subst; exfalso; apply N; change (2^0) with 1 in *; assert (b = 0) by lia; subst; reflexivity|lia] | apply Z.log2_lt_pow2; lia].
  - destruct (Z.eq_dec b 0) as [->|]; [cbn; destruct (Z.eq_dec n 0); [subst; exfalso; apply N; change (2^0) with 1 in *; assert (a = 0) by lia; subst; reflexivity|lia] | apply Z.log2_lt_pow2; lia].
Qed.

(** ** Navigator lookups *)
Section Lookup.
Variables (n : nav) (i v : Z).
Hypothesis Hv : longAt (n_vtd n) i = Ok v.
Lemma getTokenType_at : getTokenType n i = Ok (field_type v).
Proof. unfold getTokenType. rewrite Hv. cbn [obind]. rewrite tokType_field. reflexivity. Qed.
Lemma getTokenOffset_at : getTokenOffset n i = Ok (field_offset v mod 2^30).
Proof. unfold getTokenOffset. rewrite Hv. cbn [obind]. rewrite tokOffset_field. reflexivity. Qed.
Lemma getTokenDepth_at : getTokenDepth n i = Ok (if field_depth v =? 255 then -1 else field_depth v).
Proof. unfold getTokenDepth. rewrite Hv. cbn [obind]. rewrite tokDepth_field. reflexivity. Qed.
Lemma getTokenLength_name : isNameTok (field_type v) = true ->
  getTokenLength n i = Ok (if n_ns n then field_prefix_length v * 2^16 + field_name_length v else field_name_length v).
Proof.
  intros H. unfold getTokenLength. rewrite getTokenType_at. cbn [obind]. rewrite H, Hv. cbn [obind].
  rewrite tokQnLen_field, tokPreLen_field. pose proof (name_len_fields v). f_equal. destruct (n_ns n).
  - rewrite Z.lor_comm, lor_disjoint by lia. apply wrap32_id. lia.
  - apply wrap32_id. lia.
Qed.
Lemma getTokenLength_other : isNameTok (field_type v) = false -> isTextTok (field_type v) = false ->
  getTokenLength n i = Ok (field_length v).
Proof.
  intros H1 H2. unfold getTokenLength. rewrite getTokenType_at. cbn [obind]. rewrite H1, H2, Hv. cbn [obind].
  rewrite tokFullLen_field. f_equal. apply wrap32_id. pose proof (field_length_range v). lia.
Qed.
End Lookup.

(** The text-length loop stops at the first token with a non-zero length
    field, whatever its type. *)
Lemma textLenLoop_S k n i last len :
  textLenLoop (S k) n i last len =
  if last =? 0 then obind (longAt (n_vtd n) i) (fun val => textLenLoop k n (i + 1) (wrap32 (tokFullLen val)) (u64 (len + tokFullLen val)))
  else Ok (wrap32 len).
Proof. reflexivity. Qed.
Lemma textLenLoop_stop k n i last len : last <> 0 -> textLenLoop k n i last len = Ok (wrap32 len).
Proof. intros H. destruct k; [reflexivity|]. rewrite textLenLoop_S. destruct (Z.eqb_spec last 0); [contradiction | reflexivity]. Qed.

Inductive first_nonempty (n : nav) : nat -> Z -> Z -> Prop :=
| fn_end i : first_nonempty n 0 i 0
| fn_here k i v : longAt (n_vtd n) i = Ok v -> field_length v <> 0 -> first_nonempty n (S k) i (field_length v)
| fn_skip k i v l : longAt (n_vtd n) i = Ok v -> field_length v = 0 -> first_nonempty n k (i + 1) l -> first_nonempty n (S k) i l.
Lemma textLenLoop_first n k i l : first_nonempty n k i l -> textLenLoop k n i 0 0 = Ok l.
Proof.
  induction 1 as [i|k i v Hv Hl|k i v l Hv Hl H IH].
  - reflexivity.
  - rewrite textLenLoop_S. cbn [Z.eqb]. rewrite Hv. cbn [obind]. rewrite tokFullLen_field.
    pose proof (field_length_range v). rewrite textLenLoop_stop by (rewrite wrap32_id by lia; exact Hl).
    unfold u64. rewrite Z.mod_small by lia. rewrite wrap32_id by lia. reflexivity.
  - rewrite textLenLoop_S. cbn [Z.eqb]. rewrite Hv. cbn [obind]. rewrite tokFullLen_field, Hl. exact IH.
Qed.
Lemma getTokenLength_text n i v l : longAt (n_vtd n) i = Ok v -> isTextTok (field_type v) = true ->
  first_nonempty n (Z.to_nat (b_size (n_vtd n) - i)) i l -> getTokenLength n i = Ok l.
Proof.
  intros Hv Ht Hf. unfold getTokenLength. rewrite (getTokenType_at n i v Hv). cbn [obind].
  assert (N : isNameTok (field_type v) = false).
  { unfold isTextTok, isNameTok, TokCharacterData, TokCdataVal, TokComment, TokAttrName, TokAttrNs, TokStartingTag in *. lia. }
  rewrite N, Ht, (getTokenDepth_at n i v Hv). cbn [obind]. apply textLenLoop_first. exact Hf.
Qed.
