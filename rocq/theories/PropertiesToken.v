(** Property theorems C15-C17 and C72-C74 (token words). *)
From Verif Require Import Lib Buffer ParserPrim Nav SpecToken TokenProofs BufferProofs.

(** ** C15 and C72 *)
Theorem C15_token_round_trip_partial : forall n i t d l o,
  longAt (n_vtd n) i = Ok (mkToken t o l d) ->
  0 <= t <= 13 -> -1 <= d <= 254 -> 0 <= l < 2^20 -> 0 <= o < 2^30 ->
  getTokenType n i = Ok t /\ getTokenDepth n i = Ok d /\ getTokenOffset n i = Ok o /\
  (~ name_kind t -> ~ text_kind t \/ 0 < l -> i < b_size (n_vtd n) -> getTokenLength n i = Ok l).
Proof.
  intros n i t d l o Hv Ht Hd Hl Ho.
  destruct (mkToken_fields t o l d ltac:(lia) ltac:(lia) ltac:(lia)) as (Ft & Fd & Fl & Fo).
  rewrite (getTokenType_at _ _ _ Hv), (getTokenDepth_at _ _ _ Hv), (getTokenOffset_at _ _ _ Hv), Ft, Fd, Fo.
  split; [reflexivity|]. split.
  { f_equal. destruct (Z.eqb_spec (d mod 256) 255); lia. }
  split; [f_equal; lia|]. intros Hn Htx Hi.
  assert (Hn' : isNameTok t = false) by (unfold name_kind, isNameTok, TokAttrName, TokAttrNs, TokStartingTag in *; lia).
  assert (Htx' : isTextTok t = false \/ 0 < l) by (unfold text_kind, isTextTok, TokCharacterData, TokCdataVal, TokComment in *; lia).
  destruct (isTextTok t) eqn:Et.
  - apply (getTokenLength_text _ _ _ _ Hv); [rewrite Ft; exact Et|].
    destruct (Z.to_nat (b_size (n_vtd n) - i)) as [|k] eqn:Ek; [lia|].
    pose proof (fn_here n k i _ Hv) as F. rewrite Fl in F. apply F. destruct Htx'; [congruence | lia].
  - rewrite (getTokenLength_other _ _ _ Hv); rewrite ?Ft, ?Fl; auto.
Qed.
Print Assumptions C15_token_round_trip_partial.
Definition C15_nav (w : Z) : nav :=
  mkNav [0] 0 0 false false 0 [] (fst (appendAll (opt_buf 10) [w])) (opt_buf 10) (opt_buf 10) (opt_buf 10) 0 0 0 0 0 0 0.
Theorem C15_offset_refuted : exists n i t d l o,
  longAt (n_vtd n) i = Ok (mkToken t o l d) /\ 0 <= o < 2^31 /\ getTokenOffset n i = Ok (o - 2^30).
Proof. exists (C15_nav (mkToken 5 (2^30 + 7) 3 2)), 0, 5, 2, 3, (2^30 + 7). repeat split; vm_compute; congruence. Qed.
Print Assumptions C15_offset_refuted.
Theorem C72_token_offset_exact : forall n i t d l o,
  longAt (n_vtd n) i = Ok (mkToken t o l d) ->
  0 <= t <= 13 -> -1 <= d <= 254 -> 0 <= l < 2^20 -> 0 <= o < 2^32 ->
  getTokenType n i = Ok t /\ getTokenDepth n i = Ok d /\ getTokenOffset n i = Ok (o mod 2^30).
Proof.
  intros n i t d l o Hv Ht Hd Hl Ho.
  destruct (mkToken_fields t o l d ltac:(lia) ltac:(lia) ltac:(lia)) as (Ft & Fd & Fl & Fo).
  rewrite (getTokenType_at _ _ _ Hv), (getTokenDepth_at _ _ _ Hv), (getTokenOffset_at _ _ _ Hv), Ft, Fd, Fo.
  split; [reflexivity|]. split; [|reflexivity]. f_equal. destruct (Z.eqb_spec (d mod 256) 255); lia.
Qed.
Print Assumptions C72_token_offset_exact.
Theorem C72_fields_of_any_word : forall n i v, longAt (n_vtd n) i = Ok v ->
  getTokenType n i = Ok (field_type v) /\ getTokenOffset n i = Ok (field_offset v mod 2^30) /\
  getTokenDepth n i = Ok (if field_depth v =? 255 then -1 else field_depth v).
Proof.
  intros n i v Hv. repeat split; [apply getTokenType_at | apply getTokenOffset_at | apply getTokenDepth_at]; exact Hv.
Qed.
Print Assumptions C72_fields_of_any_word.
Example C15_case : let n := C15_nav (mkToken 7 1203 15 4) in
  getTokenType n 0 = Ok 7 /\ getTokenDepth n 0 = Ok 4 /\ getTokenOffset n 0 = Ok 1203 /\ getTokenLength n 0 = Ok 15.
Proof. repeat split. Qed.
(** The words of /repo/vtdxml/navigation/common_test.go, as a sanity check. *)
Example C15_doc_token : let n := C15_nav (mkToken 13 0 0 (-1)) in getTokenType n 0 = Ok 13 /\ getTokenDepth n 0 = Ok (-1).
Proof. repeat split. Qed.

(** ** C16 and C73: the length word of names as process_attr_name.go:83 and
    process_start_tag.go write it *)
Theorem C16_attr_name_length : forall n i t d p q o,
  t = TokAttrName \/ t = TokAttrNs -> 0 <= p <= 511 -> 0 <= q <= 2047 -> -1 <= d <= 254 -> 0 <= o < 2^31 ->
  longAt (n_vtd n) i = Ok (mkToken t o (Z.lor (shl64 p 11) q) d) ->
  getTokenLength n i = Ok (if n_ns n then p * 2^16 + q else q).
Proof.
  intros n i t d p q o Ht Hp Hq Hd Ho Hv. rewrite name_len_word in Hv by lia.
  assert (Ht' : 0 <= t < 16) by (unfold TokAttrName, TokAttrNs in Ht; lia).
  destruct (mkToken_fields t o (p * 2^11 + q) d Ht' ltac:(lia) ltac:(lia)) as (Ft & Fd & Fl & Fo).
  rewrite (getTokenLength_name _ _ _ Hv).
  - unfold field_prefix_length, field_name_length. rewrite Fl.
    replace ((p * 2^11 + q) / 2^11) with p by lia. replace ((p * 2^11 + q) mod 2^11) with q by lia. reflexivity.
  - rewrite Ft. destruct Ht as [-> | ->]; reflexivity.
Qed.
Print Assumptions C16_attr_name_length.
(** low 16 bits / next bits *)
Theorem C16_attr_name_parts : forall p q, 0 <= p <= 511 -> 0 <= q <= 2047 ->
  Z.land (p * 2^16 + q) 0xFFFF = q /\ Z.shiftr (p * 2^16 + q) 16 = p.
Proof.
  intros p q Hp Hq. change 0xFFFF with (Z.ones 16). rewrite Z.land_ones, Z.shiftr_div_pow2 by lia. lia.
Qed.
Print Assumptions C16_attr_name_parts.
Theorem C16_start_tag_length_refuted : exists n i p q,
  longAt (n_vtd n) i = Ok (mkToken TokStartingTag 1 (Z.lor (shl64 p 1) q) 0) /\
  0 <= p <= 511 /\ 0 <= q <= 2047 /\ p < q /\ n_ns n = false /\ getTokenLength n i = Ok 6 /\ q = 4.
Proof. exists (C15_nav (mkToken TokStartingTag 1 (Z.lor (shl64 1 1) 4) 0)), 0, 1, 4. repeat split; vm_compute; congruence. Qed.
Print Assumptions C16_start_tag_length_refuted.
Theorem C73_start_tag_length_exact : forall n i d p q o,
  0 <= p <= 511 -> 0 <= q <= 2047 -> -1 <= d <= 254 -> 0 <= o < 2^31 ->
  longAt (n_vtd n) i = Ok (mkToken TokStartingTag o (Z.lor (shl64 p 1) q) d) ->
  getTokenLength n i = Ok (Z.lor (2 * p) q) /\ (p = 0 -> getTokenLength n i = Ok q).
Proof.
  intros n i d p q o Hp Hq Hd Ho Hv. rewrite shl64_mul in Hv by lia.
  assert (B : 0 <= Z.lor (p * 2^1) q < 2^11) by (apply lor_bound; lia).
  destruct (mkToken_fields TokStartingTag o (Z.lor (p * 2^1) q) d ltac:(unfold TokStartingTag; lia) ltac:(lia) ltac:(lia)) as (Ft & Fd & Fl & Fo).
  assert (E : getTokenLength n i = Ok (Z.lor (2 * p) q)).
  { rewrite (getTokenLength_name _ _ _ Hv) by (rewrite Ft; reflexivity).
    unfold field_prefix_length, field_name_length. rewrite Fl. replace (2 * p) with (p * 2^1) by lia.
    set (x := Z.lor _ _) in *. rewrite (Z.div_small x), (Z.mod_small x) by lia. destruct (n_ns n); reflexivity. }
  split; [exact E|]. intros ->. rewrite E. reflexivity.
Qed.
Print Assumptions C73_start_tag_length_exact.
Example C16_case : getTokenLength (C15_nav (mkToken TokAttrName 20 (Z.lor (shl64 3 11) 9) 1)) 0 = Ok 9.
Proof. reflexivity. Qed.

(** ** C17 and C74 *)
Lemma text_kind_tok t : text_kind t -> isTextTok t = true.
Proof. unfold text_kind, isTextTok, TokCharacterData, TokCdataVal, TokComment. lia. Qed.
Theorem C17_text_length_partial : forall n i v,
  longAt (n_vtd n) i = Ok v -> text_kind (field_type v) -> field_length v <> 0 -> i < b_size (n_vtd n) ->
  getTokenLength n i = Ok (field_length v).
Proof.
  intros n i v Hv Ht Hl Hi. apply (getTokenLength_text _ _ _ _ Hv (text_kind_tok _ Ht)).
  destruct (Z.to_nat (b_size (n_vtd n) - i)) as [|k] eqn:E; [lia|]. apply fn_here; assumption.
Qed.
Print Assumptions C17_text_length_partial.
Definition C17_nav : nav :=
  mkNav [0] 0 0 false false 0 [] (fst (appendAll (opt_buf 10) [mkToken 5 3 0 0; mkToken 0 7 4 1])) (opt_buf 10) (opt_buf 10) (opt_buf 10) 0 0 0 0 0 0 0.
Theorem C17_text_length_refuted : exists n i v,
  longAt (n_vtd n) i = Ok v /\ text_kind (field_type v) /\ field_length v = 0 /\ getTokenLength n i = Ok 4.
Proof. exists C17_nav, 0. eexists. split; [vm_compute; reflexivity|]. split; [left; vm_compute; reflexivity|]. split; vm_compute; reflexivity. Qed.
Print Assumptions C17_text_length_refuted.
Theorem C74_text_length_exact : forall n i v l,
  longAt (n_vtd n) i = Ok v -> text_kind (field_type v) ->
  first_nonempty n (Z.to_nat (b_size (n_vtd n) - i)) i l -> getTokenLength n i = Ok l.
Proof. intros n i v l Hv Ht. exact (getTokenLength_text n i v l Hv (text_kind_tok _ Ht)). Qed.
Print Assumptions C74_text_length_exact.
Example C74_case : first_nonempty C17_nav (Z.to_nat (b_size (n_vtd C17_nav) - 0)) 0 4.
Proof.
  change (Z.to_nat (b_size (n_vtd C17_nav) - 0)) with 2%nat.
  apply fn_skip with (mkToken 5 3 0 0); [reflexivity | reflexivity|].
  change 4 with (field_length (mkToken 0 7 4 1)). apply fn_here; [reflexivity | vm_compute; discriminate].
Qed.
