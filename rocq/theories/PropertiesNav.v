(** Property theorems C18-C28 and C75-C82 (strings and cursor moves). *)
From Verif Require Import Lib Buffer ParserPrim Nav BufferProofs SpecToken TokenProofs PropertiesToken SpecNav NavStrProofs NavMoveProofs NavCacheProofs NavFrameProofs.

(** A navigator over literal contents, for the concrete cases. *)
Definition lbuf (e : Z) (ws : list Z) : longbuf := fst (appendAll (opt_buf e) ws).
Definition litNav (ctx : list Z) (root enc : Z) (doc : list byte) (vtd l1 l2 l3 : longbuf) (l1i l2i l3i l2lo l2up l3lo l3up : Z) : nav :=
  mkNav ctx root enc false false 0 doc vtd l1 l2 l3 l1i l2i l3i l2lo l2up l3lo l3up.
Definition docNav (s : string) : nav := litNav [-1] 0 0 (bytes_of s) (lbuf 10 []) (lbuf 10 []) (lbuf 10 []) (lbuf 10 []) 0 0 0 0 0 0 0.

Lemma lbuf_views ws : zlen ws <= 1024 -> views (lbuf 10 ws) ws.
Proof.
  intros H. destruct (appendAll_repr 10 ws (opt_buf 10) [] (repr_new 10 ltac:(lia))) as (b & E & R).
  apply (views_of_repr 10); [|lia|lia]. unfold lbuf. rewrite E. exact R.
Qed.

(** ** C18 and C75 *)
Definition inside (n : nav) (off len : Z) : Prop := 0 <= off /\ 0 <= len /\ off + len <= zlen (n_xml n) /\ zlen (n_xml n) < 2^31.
Lemma raw_inside n off len : inside n off len -> n_enc n <= FormatWin1258 ->
  toRawStringAtRange n off len = Some (Ok (shownEnc (n_enc n) (Z.to_nat len) (skipn (Z.to_nat off) (n_xml n)))).
Proof.
  intros (H1 & H2 & H3 & H4) He. assert (W : wrap32 (off + len) = off + len) by (apply wrap32_id; lia).
  destruct (Z.eq_dec len 0) as [->|].
  - rewrite rawRange_empty by (rewrite W; lia). destruct (skipn _ _); reflexivity.
  - rewrite rawRange_ok; rewrite ?W; try lia. do 3 f_equal. lia.
Qed.
Theorem C18_raw_string_partial : forall n off len, inside n off len -> byteEnc (n_enc n) = true ->
  has_crlf (slice (n_xml n) off len) = false ->
  (forall p, slice (n_xml n) off len <> p ++ [CR] \/ off + len < zlen (n_xml n)) ->
  toRawStringAtRange n off len = Some (Ok (normalize (slice (n_xml n) off len))).
Proof.
  intros n off len HI HE H1 H2. rewrite raw_inside; [|exact HI | unfold byteEnc, FormatAscii, FormatIso88591, FormatUtf8, FormatWin1258 in *; lia].
  rewrite shownEnc_byte by exact HE. do 2 f_equal. unfold slice in *. destruct HI as (I1 & I2 & I3 & I4).
  assert (HL : (Z.to_nat len <= length (skipn (Z.to_nat off) (n_xml n)))%nat) by (rewrite skipn_length; unfold zlen in *; lia).
  apply shown_normalize; [exact HL | exact H1|]. intros p. destruct (H2 p) as [A|A]; [left; exact A|]. right.
  intros E. apply (f_equal (@length byte)) in E. rewrite skipn_length, skipn_length in E. cbn in E. unfold zlen in *. lia.
Qed.
Print Assumptions C18_raw_string_partial.
Theorem C18_no_cr : forall n off len, inside n off len -> byteEnc (n_enc n) = true ->
  ~ In CR (slice (n_xml n) off len) -> toRawStringAtRange n off len = Some (Ok (slice (n_xml n) off len)).
Proof.
  intros n off len HI HE H1. rewrite raw_inside; [|exact HI | unfold byteEnc, FormatAscii, FormatIso88591, FormatUtf8, FormatWin1258 in *; lia].
  rewrite shownEnc_byte by exact HE. do 2 f_equal. unfold slice in *. destruct HI as (I1 & I2 & I3 & I4).
  apply shown_no_cr; [rewrite skipn_length; unfold zlen in *; lia | exact H1].
Qed.
Print Assumptions C18_no_cr.
Theorem C18_crlf_refuted : exists n off len, inside n off len /\ byteEnc (n_enc n) = true /\
  toRawStringAtRange n off len = Some (Ok [x61; LF; LF; x62]) /\ normalize (slice (n_xml n) off len) = [x61; LF; x62].
Proof.
  exists (litNav [-1] 0 0 [x61; CR; LF; x62] (lbuf 10 []) (lbuf 10 []) (lbuf 10 []) (lbuf 10 []) 0 0 0 0 0 0 0), 0, 4.
  repeat split; vm_compute; congruence.
Qed.
Print Assumptions C18_crlf_refuted.
Theorem C18_final_cr_refuted : exists n off len, inside n off len /\ byteEnc (n_enc n) = true /\
  toRawStringAtRange n off len = Some (Ok [x61; x00]) /\ normalize (slice (n_xml n) off len) = [x61; LF].
Proof.
  exists (litNav [-1] 0 0 [x61; CR] (lbuf 10 []) (lbuf 10 []) (lbuf 10 []) (lbuf 10 []) 0 0 0 0 0 0 0), 0, 2.
  repeat split; vm_compute; congruence.
Qed.
Print Assumptions C18_final_cr_refuted.
Example C18_case : toRawStringAtRange (litNav [-1] 0 0 [x61; CR; x62; x63] (lbuf 10 []) (lbuf 10 []) (lbuf 10 []) (lbuf 10 []) 0 0 0 0 0 0 0) 0 3
  = Some (Ok [x61; LF; x62]).
Proof. reflexivity. Qed.
(** one output byte per document byte; CR shown as LF, or NUL at the very end;
    every other supported encoding shows only NULs *)
Theorem C75_raw_string_exact : forall n off len, inside n off len -> n_enc n <= FormatWin1258 ->
  toRawStringAtRange n off len =
  Some (Ok (if byteEnc (n_enc n) then shown (Z.to_nat len) (skipn (Z.to_nat off) (n_xml n)) else repeat x00 (Z.to_nat len))).
Proof.
  intros n off len HI HE. rewrite raw_inside by assumption. do 2 f_equal. destruct (byteEnc (n_enc n)) eqn:E.
  - apply shownEnc_byte. exact E.
  - apply shownEnc_other; [exact E|]. destruct HI as (I1 & I2 & I3 & I4). rewrite skipn_length. unfold zlen in *. lia.
Qed.
Print Assumptions C75_raw_string_exact.
Example C75_case : toRawStringAtRange (litNav [-1] 0 18 (bytes_of "abc") (lbuf 10 []) (lbuf 10 []) (lbuf 10 []) (lbuf 10 []) 0 0 0 0 0 0 0) 1 2
  = Some (Ok [x00; x00]).
Proof. reflexivity. Qed.

(** ** C82: strings by token index *)
Lemma rawIndex_fields n i t o l : getTokenType n i = Ok t -> getTokenOffset n i = Ok o -> getTokenLength n i = Ok l ->
  toRawStringAtIndex n i = toRawStringAtRange n o (if isNameTok t then Z.land l 0xFFFF else l).
Proof. intros E1 E2 E3. unfold toRawStringAtIndex. rewrite E1, E2, E3. cbn [nbind]. reflexivity. Qed.
Theorem C82_attr_name_string : forall n i t d p q o,
  t = TokAttrName \/ t = TokAttrNs -> 0 <= p <= 511 -> 0 <= q <= 2047 -> -1 <= d <= 254 -> 0 <= o < 2^30 ->
  longAt (n_vtd n) i = Ok (mkToken t o (Z.lor (shl64 p 11) q) d) ->
  inside n o q -> byteEnc (n_enc n) = true -> ~ In CR (slice (n_xml n) o q) ->
  toRawStringAtIndex n i = Some (Ok (slice (n_xml n) o q)) /\ toStringAtIndex n i = Some (Ok (slice (n_xml n) o q)).
Proof.
  intros n i t d p q o Ht Hp Hq Hd Ho Hv HI HE HC.
  pose proof (C16_attr_name_length n i t d p q o Ht Hp Hq Hd ltac:(lia) Hv) as L.
  destruct (C16_attr_name_parts p q Hp Hq) as (P1 & _).
  assert (Q1 : Z.land q 0xFFFF = q) by (change 0xFFFF with (Z.ones 16); rewrite Z.land_ones by lia; apply Z.mod_small; lia).
  assert (W : 0 <= Z.lor (shl64 p 11) q < 2^20).
  { rewrite name_len_word by lia. lia. }
  destruct (C72_token_offset_exact n i t d _ o Hv ltac:(unfold TokAttrName, TokAttrNs in Ht; lia) Hd W ltac:(lia)) as (T & D & O).
  rewrite Z.mod_small in O by lia.
  assert (R : toRawStringAtIndex n i = Some (Ok (slice (n_xml n) o q))).
  { rewrite (rawIndex_fields _ _ _ _ _ T O L). assert (N : isNameTok t = true) by (destruct Ht as [-> | ->]; reflexivity). rewrite N.
    destruct (n_ns n); rewrite ?P1, ?Q1; apply C18_no_cr; assumption. }
  split; [exact R|]. unfold toStringAtIndex. rewrite T. cbn [nbind].
  assert (N : negb (t =? TokCharacterData) && negb (t =? TokAttrVal) = true) by (destruct Ht as [-> | ->]; reflexivity).
  rewrite N. exact R.
Qed.
Print Assumptions C82_attr_name_string.
Theorem C82_tag_name_string : forall n i d q o,
  0 <= q <= 2047 -> -1 <= d <= 254 -> 0 <= o < 2^30 ->
  longAt (n_vtd n) i = Ok (mkToken TokStartingTag o (Z.lor (shl64 0 1) q) d) ->
  inside n o q -> byteEnc (n_enc n) = true -> ~ In CR (slice (n_xml n) o q) ->
  toRawStringAtIndex n i = Some (Ok (slice (n_xml n) o q)) /\ toStringAtIndex n i = Some (Ok (slice (n_xml n) o q)).
Proof.
  intros n i d q o Hq Hd Ho Hv HI HE HC.
  destruct (C73_start_tag_length_exact n i d 0 q o ltac:(lia) Hq Hd ltac:(lia) Hv) as (_ & L). specialize (L eq_refl).
  assert (Q1 : Z.land q 0xFFFF = q) by (change 0xFFFF with (Z.ones 16); rewrite Z.land_ones by lia; apply Z.mod_small; lia).
  assert (W : Z.lor (shl64 0 1) q = q) by (apply Z.lor_0_l). rewrite W in Hv.
  destruct (C72_token_offset_exact n i _ d _ o Hv ltac:(unfold TokStartingTag; lia) Hd ltac:(lia) ltac:(lia)) as (T & D & O).
  rewrite Z.mod_small in O by lia.
  assert (R : toRawStringAtIndex n i = Some (Ok (slice (n_xml n) o q))).
  { rewrite (rawIndex_fields _ _ _ _ _ T O L). change (isNameTok TokStartingTag) with true. cbv iota. rewrite Q1. apply C18_no_cr; assumption. }
  split; [exact R|]. unfold toStringAtIndex. rewrite T. cbn [nbind]. exact R.
Qed.
Print Assumptions C82_tag_name_string.
Theorem C82_other_string : forall n i t d l o,
  0 <= t <= 13 -> ~ name_kind t -> -1 <= d <= 254 -> 0 <= l < 2^20 -> ~ text_kind t \/ 0 < l -> 0 <= o < 2^30 ->
  longAt (n_vtd n) i = Ok (mkToken t o l d) -> i < b_size (n_vtd n) ->
  inside n o l -> byteEnc (n_enc n) = true -> ~ In CR (slice (n_xml n) o l) ->
  toRawStringAtIndex n i = Some (Ok (slice (n_xml n) o l)) /\ toStringAtIndex n i = Some (Ok (slice (n_xml n) o l)).
Proof.
  intros n i t d l o Ht Hn Hd Hl Htx Ho Hv Hi HI HE HC.
  destruct (C15_token_round_trip_partial n i t d l o Hv Ht Hd Hl Ho) as (T & D & O & L). specialize (L Hn Htx Hi).
  assert (Hn' : isNameTok t = false) by (unfold name_kind, isNameTok, TokAttrName, TokAttrNs, TokStartingTag in *; lia).
  assert (R : toRawStringAtIndex n i = Some (Ok (slice (n_xml n) o l))).
  { rewrite (rawIndex_fields _ _ _ _ _ T O L). rewrite Hn'. apply C18_no_cr; assumption. }
  split; [exact R|]. unfold toStringAtIndex. rewrite T. cbn [nbind]. destruct (_ && _); [exact R|].
  rewrite L, O. cbn [nbind]. rewrite toString_eq_raw. apply C18_no_cr; assumption.
Qed.
Print Assumptions C82_other_string.
Lemma shown_lf k : forall l, (k < length l)%nat -> shown k l = map lf (firstn k l).
Proof.
  induction k as [|k IH]; intros [|b t] H; cbn [length] in H; try lia; [reflexivity|]. cbn [firstn map]. rewrite <- IH by lia.
  destruct b; try reflexivity. destruct t as [|c t]; [cbn [length] in H; lia | reflexivity].
Qed.
(** The same with CR in the text, which may not be the last byte of the document *)
Theorem C82_shown_string : forall n i t d l o,
  0 <= t <= 13 -> ~ name_kind t -> -1 <= d <= 254 -> 0 <= l < 2^20 -> ~ text_kind t \/ 0 < l -> 0 <= o < 2^30 ->
  longAt (n_vtd n) i = Ok (mkToken t o l d) -> i < b_size (n_vtd n) ->
  inside n o l -> l = 0 \/ o + l < zlen (n_xml n) -> byteEnc (n_enc n) = true ->
  toRawStringAtIndex n i = Some (Ok (map lf (slice (n_xml n) o l))) /\ toStringAtIndex n i = Some (Ok (map lf (slice (n_xml n) o l))).
Proof.
  intros n i t d l o Ht Hn Hd Hl Htx Ho Hv Hi HI HL HE.
  destruct (C15_token_round_trip_partial n i t d l o Hv Ht Hd Hl Ho) as (T & D & O & L). specialize (L Hn Htx Hi).
  assert (Hn' : isNameTok t = false) by (unfold name_kind, isNameTok, TokAttrName, TokAttrNs, TokStartingTag in *; lia).
  assert (S : toRawStringAtRange n o l = Some (Ok (map lf (slice (n_xml n) o l)))).
  { rewrite C75_raw_string_exact; [|exact HI | unfold byteEnc, FormatAscii, FormatIso88591, FormatUtf8, FormatWin1258 in *; lia]. rewrite HE. unfold slice. do 2 f_equal. destruct HL as [-> |HL]; [destruct (skipn _ _); reflexivity|]. apply shown_lf. rewrite skipn_length. unfold zlen in *. lia. }
  assert (R : toRawStringAtIndex n i = Some (Ok (map lf (slice (n_xml n) o l)))) by (rewrite (rawIndex_fields _ _ _ _ _ T O L), Hn'; exact S).
  split; [exact R|]. unfold toStringAtIndex. rewrite T. cbn [nbind]. destruct (_ && _); [exact R|].
  rewrite L, O. cbn [nbind]. rewrite toString_eq_raw. exact S.
Qed.
Print Assumptions C82_shown_string.
Example C82_shown_case : let n := litNav [-1] 0 0 [x61; CR; LF; x62; x63] (lbuf 10 [mkToken 5 0 4 0]) (lbuf 10 []) (lbuf 10 []) (lbuf 10 []) 0 0 0 0 0 0 0 in
  toStringAtIndex n 0 = Some (Ok [x61; LF; LF; x62]).
Proof. vm_compute. reflexivity. Qed.
(** a 300-byte attribute name: the length word does not fit in a byte *)
Definition C82_nav : nav := litNav [0] 0 0 (x3c :: x61 :: x20 :: repeat x62 300 ++ [x3d])
  (lbuf 10 [mkToken TokAttrName 3 (Z.lor (shl64 0 11) 300) 0]) (lbuf 10 []) (lbuf 10 []) (lbuf 10 []) 0 0 0 0 0 0 0.
Example C82_case : longAt (n_vtd C82_nav) 0 = Ok (mkToken TokAttrName 3 (Z.lor (shl64 0 11) 300) 0) /\ inside C82_nav 3 300 /\
  toStringAtIndex C82_nav 0 = Some (Ok (repeat x62 300)).
Proof. split; [reflexivity|]. split; [repeat split; vm_compute; congruence | vm_compute; reflexivity]. Qed.

(** ** C19 and C76 *)
Theorem C19_entities_refuted : exists n off len, inside n off len /\ byteEnc (n_enc n) = true /\
  slice (n_xml n) off len = bytes_of "a&lt;b" /\ toStringAtRange n off len = Some (Ok (bytes_of "a&lt;b")).
Proof. exists (docNav "<x>a&lt;b</x>"), 3, 6. repeat split; vm_compute; congruence. Qed.
Print Assumptions C19_entities_refuted.
(** what remains true: text without references is returned *)
Theorem C19_plain_text_partial : forall n off len, inside n off len -> byteEnc (n_enc n) = true ->
  ~ In CR (slice (n_xml n) off len) -> toStringAtRange n off len = Some (Ok (slice (n_xml n) off len)).
Proof. intros. rewrite toString_eq_raw. apply C18_no_cr; assumption. Qed.
Print Assumptions C19_plain_text_partial.
Theorem C76_tostring_is_raw : forall n, (forall off len, toStringAtRange n off len = toRawStringAtRange n off len) /\
  (forall i, toStringAtIndex n i = toRawStringAtIndex n i).
Proof.
  intros n. split; [apply toString_eq_raw|]. intros i. unfold toStringAtIndex.
  destruct (getTokenType n i) as [t|e|w] eqn:E; cbn [nbind].
  - destruct (negb (t =? TokCharacterData) && negb (t =? TokAttrVal)) eqn:E1; [reflexivity|].
    unfold toRawStringAtIndex. rewrite E. cbn [nbind].
    assert (N : isNameTok t = false) by (unfold isNameTok, TokCharacterData, TokAttrVal, TokAttrName, TokAttrNs, TokStartingTag in *; lia).
    rewrite N. destruct (getTokenLength n i) as [l|e|w]; cbn [nbind]; try reflexivity.
    destruct (getTokenOffset n i); cbn [nbind]; [apply toString_eq_raw | reflexivity | reflexivity].
  - unfold toRawStringAtIndex. rewrite E. reflexivity.
  - unfold toRawStringAtIndex. rewrite E. reflexivity.
Qed.
Print Assumptions C76_tostring_is_raw.

(** ** C20 and C77 *)
Theorem C77_range_exact : forall n off len, in_i32 off -> in_i32 len ->
  let stop := if 2^31 <=? off + len then off + len - 2^32 else if off + len <? -2^31 then off + len + 2^32 else off + len in
  exists r, toStringAtRange n off len = Some r /\ toRawStringAtRange n off len = Some r /\
  match r with
  | Ok _ => stop <= off \/ (0 <= off /\ stop <= zlen (n_xml n) /\ n_enc n <= FormatWin1258)
  | Err _ => off < stop /\ (off < 0 \/ zlen (n_xml n) < stop \/ FormatWin1258 < n_enc n)
  | Panic _ => False
  end.
Proof.
  intros n off len Ho Hl stop. assert (W : wrap32 (off + len) = stop).
  { rewrite i32_sum by assumption. unfold stop, in_i32 in *. destruct (off + len <? -2^31) eqn:E1, (2^31 <=? off + len) eqn:E2; lia. }
  rewrite toString_eq_raw.
  destruct (Z_lt_le_dec off stop) as [L|L].
  - destruct ((0 <=? off) && (stop <=? zlen (n_xml n)) && (n_enc n <=? FormatWin1258)) eqn:E.
    + rewrite rawRange_ok by (rewrite ?W; lia). eexists. split; [reflexivity|]. split; [reflexivity|]. right. lia.
    + destruct (rawRange_err n off len) as [e Ee]; [rewrite W; exact L | rewrite W; lia|].
      exists (Err e). split; [exact Ee|]. split; [exact Ee|]. split; [exact L | lia].
  - rewrite rawRange_empty by (rewrite W; exact L). eexists. split; [reflexivity|]. split; [reflexivity|]. left. exact L.
Qed.
Print Assumptions C77_range_exact.
Theorem C20_range_errors_partial : forall n off len, in_i32 off -> in_i32 len -> in_i32 (off + len) -> n_enc n <= FormatWin1258 ->
  exists r, toStringAtRange n off len = Some r /\ toRawStringAtRange n off len = Some r /\ (forall w, r <> Panic w) /\
  ((exists e, r = Err e) <-> 0 < len /\ ~ (0 <= off /\ off + len <= zlen (n_xml n))).
Proof.
  intros n off len Ho Hl Hs He. destruct (C77_range_exact n off len Ho Hl) as (r & R1 & R2 & R3). unfold in_i32 in *.
  destruct (2^31 <=? off + len) eqn:E1; [lia|]. destruct (off + len <? -2^31) eqn:E2; [lia|].
  exists r. split; [exact R1|]. split; [exact R2|]. destruct r as [s|e|w]; [| |contradiction].
  - split; [discriminate|]. split; [intros [e E]; discriminate | intros [A B]; lia].
  - split; [discriminate|]. split; [intros _; lia | intros _; eauto].
Qed.
Print Assumptions C20_range_errors_partial.
Theorem C20_overflow_refuted : exists n off len, in_i32 off /\ in_i32 len /\ 0 < len /\ zlen (n_xml n) < off + len /\
  toStringAtRange n off len = Some (Ok []).
Proof. exists (docNav "<a/>"), 1, (2^31 - 1). repeat split; vm_compute; congruence. Qed.
Print Assumptions C20_overflow_refuted.
Example C20_case : exists e, toStringAtRange (docNav "<a/>") 2 3 = Some (Err e).
Proof. eexists; reflexivity. Qed.

(** ** C21 *)
Theorem C21_root : forall n c, ctxAt n 0 = Ok c ->
  exists n', toElement n DirRoot = (n', Ok true) /\ getCurrentIndex n' = Ok (n_root n).
Proof.
  intros n c H. pose proof (ctxAt_range _ _ _ H) as R. unfold toElement. change (DirRoot =? DirRoot) with true. cbn iota.
  unfold toRootElement. rewrite H. cbn [mtry]. destruct (c =? 0) eqn:E; cbn [mtry].
  - eexists. split; [reflexivity|]. unfold getCurrentIndex. cbn [w_term n_term n_root]. unfold ctxAt in *. cbn [w_term n_ctx].
    destruct (znth (n_ctx n) 0); [|discriminate]. cbn [obind]. injection H as ->. rewrite E. destruct (c =? -1) eqn:E2; [lia | reflexivity].
  - rewrite ctxSet_ok by lia. cbn [mtry]. eexists. split; [reflexivity|]. unfold getCurrentIndex. cbn [w_term w_ctx n_term n_root].
    unfold ctxAt. cbn [w_term w_ctx n_ctx]. rewrite znth_upd_same by lia. reflexivity.
Qed.
Print Assumptions C21_root.
(** [d] is the current depth; the cursor's path below the root is kept in context[1..d] *)
Theorem C21_parent : forall n d, n_term n = false -> ctxAt n 0 = Ok d -> -1 <= d < zlen (n_ctx n) ->
  (d = -1 -> toElement n DirParent = (n, Ok false)) /\
  (0 <= d -> exists n', toElement n DirParent = (n', Ok true) /\ ctxAt n' 0 = Ok (d - 1) /\
      (forall j, 1 <= j < d -> ctxAt n' j = ctxAt n j) /\
      getCurrentIndex n' = (if d =? 0 then Ok 0 else if d =? 1 then Ok (n_root n) else ctxAt n (d - 1))).
Proof.
  intros n d HT H0 HR. pose proof (ctxAt_range _ _ _ H0) as R0. apply ctxAt_znth in H0 as Z0.
  unfold toElement. change (DirParent =? DirRoot) with false. change (DirParent =? DirParent) with true. cbn iota.
  unfold toParentElement. rewrite HT, H0. cbn [mtry]. split.
  - intros ->. reflexivity.
  - intros Hd. destruct (0 <? d) eqn:E.
    + rewrite ctxSet_ok by lia. cbn [mtry].
      assert (Z1 : ctxAt (w_ctx (upd (n_ctx n) (Z.to_nat d) (-1)) n) 0 = Ok d).
      { apply ctxAt_znth. cbn [w_ctx n_ctx]. rewrite znth_upd_other by lia. exact Z0. }
      rewrite Z1. cbn [mtry]. rewrite ctxSet_ok by (cbn [w_ctx n_ctx]; rewrite zlen_upd; lia). cbn [mtry w_ctx n_ctx].
      set (ct := upd _ (Z.to_nat 0) _). eexists. split; [reflexivity|].
      assert (Zn : znth ct 0 = Some (d - 1)) by (apply znth_upd_same; rewrite zlen_upd; lia).
      assert (Zk : forall j, 1 <= j < d -> znth ct j = znth (n_ctx n) j).
      { intros j Hj. unfold ct. rewrite !znth_upd_other by (rewrite ?zlen_upd; lia). reflexivity. }
      split; [unfold ctxAt; navsimp; rewrite Zn; reflexivity|].
      split; [intros j Hj; unfold ctxAt; navsimp; rewrite Zk by exact Hj; reflexivity|].
      unfold getCurrentIndex. navsimp. rewrite HT. unfold ctxAt. navsimp. rewrite Zn. cbn [obind].
      destruct (d =? 0) eqn:E0; [lia|]. destruct (d =? 1) eqn:E1.
      * assert (d = 1) by lia. subst d. reflexivity.
      * destruct (d - 1 =? -1) eqn:E2; [lia|]. destruct (d - 1 =? 0) eqn:E3; [lia|].
        assert (LC : zlen ct = zlen (n_ctx n)) by (unfold ct; rewrite !zlen_upd; reflexivity). rewrite LC.
        destruct ((d - 1 <? 0) || (zlen (n_ctx n) <=? d - 1)) eqn:E4; [lia|]. rewrite Zk by lia. reflexivity.
    + assert (d = 0) by lia. subst d. cbn [Z.eqb]. rewrite ctxSet_ok by lia. cbn [mtry].
      eexists. split; [reflexivity|]. split; [apply ctxAt_znth; cbn [w_ctx n_ctx]; apply znth_upd_same; lia|].
      split; [intros; lia|]. unfold getCurrentIndex. cbn [w_ctx n_term]. rewrite HT. unfold ctxAt. cbn [w_ctx n_ctx].
      rewrite znth_upd_same by lia. reflexivity.
Qed.
Print Assumptions C21_parent.
Definition C21_nav : nav := litNav [3; 5; 7; 9; -1] 2 0 [] (lbuf 10 []) (lbuf 10 []) (lbuf 10 []) (lbuf 10 []) 0 0 0 0 0 0 0.
Example C21_case : getCurrentIndex C21_nav = Ok 9 /\ getCurrentIndex (fst (toElement C21_nav DirParent)) = Ok 7 /\
  getCurrentIndex (fst (toElement C21_nav DirRoot)) = Ok 2.
Proof. repeat split. Qed.

(** ** C22 *)
Theorem C22_first_child_partial : forall n ws d cur, views (n_vtd n) ws -> n_term n = false ->
  ctxAt n 0 = Ok d -> 3 <= d -> d + 1 < zlen (n_ctx n) -> ctxAt n d = Ok cur -> 0 <= cur < 2^31 - 1 ->
  (forall i, first_child ws cur d i -> exists n', toElement n DirFirstChild = (n', Ok true) /\
     getCurrentIndex n' = Ok i /\ ctxAt n' 0 = Ok (d + 1) /\ forall j, 1 <= j <= d -> ctxAt n' j = ctxAt n j) /\
  ((forall i, ~ first_child ws cur d i) -> toElement n DirFirstChild = (n, Ok false)).
Proof.
  intros n ws d cur Hv HT H0 Hd Hc Hcur Hr. unfold toElement.
  change (DirFirstChild =? DirRoot) with false. change (DirFirstChild =? DirParent) with false.
  change ((DirFirstChild =? DirFirstChild) || (DirFirstChild =? DirLastChild)) with true. cbn iota.
  change (DirFirstChild =? DirFirstChild) with true. unfold toChildElement. rewrite HT, H0. cbn [mtry].
  destruct (d =? -1) eqn:E0; [lia|]. destruct (d =? 0) eqn:E1; [lia|]. destruct (d =? 1) eqn:E2; [lia|]. destruct (d =? 2) eqn:E3; [lia|].
  destruct (toFirstChild_spec n ws d cur Hv ltac:(lia) Hc H0 Hcur Hr) as [(i & Hi & Ei)|(Hno & En)].
  - split.
    + intros i' Hi'. assert (i' = i).
      { destruct Hi as (A1 & A2 & A3), Hi' as (B1 & B2 & B3). destruct (Z_lt_le_dec i i') as [L|L].
        - specialize (B3 i _ ltac:(lia) A2). lia.
        - destruct (Z.eq_dec i' i); [assumption|]. specialize (A3 i' _ ltac:(lia) B2). lia. }
      subst i'. exists (placed n (d + 1) i). destruct (placed_spec n (d + 1) i HT ltac:(lia)) as (P1 & P2 & P3).
      split; [exact Ei|]. split; [exact P1|]. split; [exact P2|]. intros j Hj. apply P3; lia.
    + intros Hno. destruct (Hno i Hi).
  - split; [intros i Hi; destruct (Hno i Hi) | intros _; exact En].
Qed.
Print Assumptions C22_first_child_partial.
Theorem C22_last_child_partial : forall n ws d cur, views (n_vtd n) ws -> n_term n = false ->
  ctxAt n 0 = Ok d -> 3 <= d -> d + 1 < zlen (n_ctx n) -> ctxAt n d = Ok cur -> 0 <= cur < 2^31 - 1 ->
  (forall i, last_child ws cur d i -> exists n', toElement n DirLastChild = (n', Ok true) /\
     getCurrentIndex n' = Ok i /\ ctxAt n' 0 = Ok (d + 1) /\ forall j, 1 <= j <= d -> ctxAt n' j = ctxAt n j) /\
  ((forall i, ~ is_child ws cur d i) -> toElement n DirLastChild = (n, Ok false)) /\
  ((exists i, is_child ws cur d i) -> exists i, last_child ws cur d i).
Proof.
  intros n ws d cur Hv HT H0 Hd Hc Hcur Hr. unfold toElement.
  change (DirLastChild =? DirRoot) with false. change (DirLastChild =? DirParent) with false.
  change ((DirLastChild =? DirFirstChild) || (DirLastChild =? DirLastChild)) with true. cbn iota.
  change (DirLastChild =? DirFirstChild) with false. unfold toChildElement. rewrite HT, H0. cbn [mtry].
  destruct (d =? -1) eqn:E0; [lia|]. destruct (d =? 0) eqn:E1; [lia|]. destruct (d =? 1) eqn:E2; [lia|]. destruct (d =? 2) eqn:E3; [lia|].
  destruct (toLastChild_spec n ws d cur Hv ltac:(lia) Hc H0 Hcur Hr) as [(i & Hi & Ei)|(Hno & En)].
  - split; [|split].
    + intros i' Hi'. assert (i' = i).
      { destruct Hi as (A1 & A2), Hi' as (B1 & B2). specialize (A2 _ B1). specialize (B2 _ A1). lia. }
      subst i'. exists (placed n (d + 1) i). destruct (placed_spec n (d + 1) i HT ltac:(lia)) as (P1 & P2 & P3).
      split; [exact Ei|]. split; [exact P1|]. split; [exact P2|]. intros j Hj. apply P3; lia.
    + intros Hno. destruct (Hno i). apply Hi.
    + intros _. exists i. exact Hi.
  - split; [intros i Hi; destruct (Hno i); apply Hi | split; [intros _; exact En|]]. intros [i Hi]. destruct (Hno i Hi).
Qed.
Print Assumptions C22_last_child_partial.
(** type 0 tokens at the given depths *)
Definition starts (ds : list Z) : list Z := map (fun d => mkToken 0 0 1 d) ds.
Definition treeNav (e : Z) (ctx ds : list Z) : nav :=
  litNav ctx 0 0 [] (lbuf e (starts ds)) (lbuf 10 []) (lbuf 10 []) (lbuf 10 []) 0 0 0 0 0 0 0.
(** beyond the first page of the token buffer children are not found *)
Theorem C22_second_page_refuted : exists n ws cur, toArray (n_vtd n) = Some (Ok ws) /\ ctxAt n 0 = Ok 3 /\ ctxAt n 3 = Ok cur /\
  first_child ws cur 3 4 /\ toElement n DirFirstChild = (n, Ok false).
Proof.
  exists (treeNav 2 [3; 1; 2; 3; -1] [0; 1; 2; 3; 4]), (starts [0; 1; 2; 3; 4]), 3.
  split; [vm_compute; reflexivity|]. split; [reflexivity|]. split; [reflexivity|]. split; [|vm_compute; reflexivity].
  split; [lia|]. split; [split; [lia|]; eexists; repeat split; vm_compute; reflexivity|]. intros; lia.
Qed.
Print Assumptions C22_second_page_refuted.
Definition C22_nav : nav := treeNav 10 [3; 1; 2; 3; -1] [0; 1; 2; 3; 4; 5; 4; 3; 4].
Lemma treeNav_views ctx ds : zlen ds <= 1024 -> views (n_vtd (treeNav 10 ctx ds)) (starts ds).
Proof. intros H. apply lbuf_views. unfold starts, zlen in *. rewrite map_length. exact H. Qed.
Example C22_case : getCurrentIndex (fst (toElement C22_nav DirFirstChild)) = Ok 4 /\ getCurrentIndex (fst (toElement C22_nav DirLastChild)) = Ok 6.
Proof. split; vm_compute; reflexivity. Qed.

(** ** C23 and C78 *)
Theorem C23_next_sibling_refuted : exists n ws cur, views (n_vtd n) ws /\ ctxAt n 0 = Ok 4 /\ ctxAt n 4 = Ok cur /\
  next_sibling ws cur 4 6 /\ toElement n DirNextSibling = (n, Ok false).
Proof.
  exists (treeNav 10 [4; 1; 2; 3; 4] [0; 1; 2; 3; 4; 5; 4; 3; 4]), (starts [0; 1; 2; 3; 4; 5; 4; 3; 4]), 4.
  split; [apply treeNav_views; vm_compute; discriminate|]. split; [reflexivity|]. split; [reflexivity|]. split; [|vm_compute; reflexivity].
  split; [lia|]. split; [split; [lia|]; eexists; repeat split; vm_compute; reflexivity|].
  intros j e Hj (_ & w & Hw & _ & ->). assert (j = 5) by lia. subst j. vm_compute in Hw. injection Hw as <-. vm_compute. reflexivity.
Qed.
Print Assumptions C23_next_sibling_refuted.
Theorem C78_next_sibling_never : forall n d cur, n_term n = false -> ctxAt n 0 = Ok d -> 4 <= d -> ctxAt n d = Ok cur ->
  fst (toElement n DirNextSibling) = n /\ snd (toElement n DirNextSibling) <> Ok true /\
  (forall ws, views (n_vtd n) ws -> -1 <= cur < 2^31 - 1 -> toElement n DirNextSibling = (n, Ok false)).
Proof.
  intros n d cur HT H0 Hd Hcur. unfold toElement.
  change (DirNextSibling =? DirRoot) with false. change (DirNextSibling =? DirParent) with false.
  change ((DirNextSibling =? DirFirstChild) || (DirNextSibling =? DirLastChild)) with false.
  change ((DirNextSibling =? DirNextSibling) || (DirNextSibling =? DirPrevSibling)) with true. cbn iota.
  change (DirNextSibling =? DirNextSibling) with true. unfold toSiblingElement. rewrite HT, H0. cbn [mtry].
  destruct ((d =? -1) || (d =? 0)) eqn:E0; [lia|]. destruct (d =? 1) eqn:E1; [lia|]. destruct (d =? 2) eqn:E2; [lia|]. destruct (d =? 3) eqn:E3; [lia|].
  unfold toNextSibling. rewrite H0. cbn [mtry]. rewrite Hcur. cbn [mtry].
  destruct (nextSiblingLoop_never n d (Z.to_nat (b_size (n_vtd n) - wrap32 (cur + 1))) (wrap32 (cur + 1))) as [N1 N2].
  split; [exact N2|]. split; [exact N1|]. intros ws Hv Hr. rewrite wrap32_id by lia. pose proof Hv as (Hs & _ & _). rewrite Hs.
  apply (nextSiblingLoop_view n ws d (proj2 Hv)); [lia | reflexivity].
Qed.
Print Assumptions C78_next_sibling_never.
Example C78_case : snd (toElement (treeNav 10 [4; 1; 2; 3; 4] [0; 1; 2; 3; 4; 4]) DirNextSibling) = Ok false.
Proof. vm_compute; reflexivity. Qed.

(** ** C24 *)
Theorem C24_prev_sibling_partial : forall n ws d cur parent, views (n_vtd n) ws -> n_term n = false ->
  ctxAt n 0 = Ok d -> 4 <= d < zlen (n_ctx n) -> ctxAt n d = Ok cur -> ctxAt n (d - 1) = Ok parent ->
  0 <= parent < cur -> cur < zlen ws ->
  (forall i, prev_sibling ws parent cur d i -> exists n', toElement n DirPrevSibling = (n', Ok true) /\
     getCurrentIndex n' = Ok i /\ ctxAt n' 0 = Ok d /\ forall j, j <> d -> ctxAt n' j = ctxAt n j) /\
  ((forall i, ~ prev_sibling ws parent cur d i) -> toElement n DirPrevSibling = (n, Ok false)).
Proof.
  intros n ws d cur parent Hv HT H0 Hd Hcur Hpar Hr Hw. unfold toElement.
  change (DirPrevSibling =? DirRoot) with false. change (DirPrevSibling =? DirParent) with false.
  change ((DirPrevSibling =? DirFirstChild) || (DirPrevSibling =? DirLastChild)) with false.
  change ((DirPrevSibling =? DirNextSibling) || (DirPrevSibling =? DirPrevSibling)) with true. cbn iota.
  change (DirPrevSibling =? DirNextSibling) with false. unfold toSiblingElement. rewrite HT, H0. cbn [mtry].
  destruct ((d =? -1) || (d =? 0)) eqn:E0; [lia|]. destruct (d =? 1) eqn:E1; [lia|]. destruct (d =? 2) eqn:E2; [lia|]. destruct (d =? 3) eqn:E3; [lia|].
  unfold toPrevSibling. rewrite H0. cbn [mtry]. rewrite Hcur. cbn [mtry]. rewrite Hpar. cbn [mtry].
  pose proof Hv as (_ & Hm & _). rewrite wrap32_id by lia.
  destruct (prevSiblingLoop_spec n ws d parent cur (proj2 Hv) ltac:(lia) ltac:(lia) ltac:(lia) _ (cur - 1) ltac:(lia) eq_refl ltac:(intros; lia)) as [(i & Hi & Ei)|(Hno & En)].
  - split.
    + intros i' Hi'. assert (i' = i).
      { destruct Hi as (A1 & A2 & A3), Hi' as (B1 & B2 & B3). destruct (Z.lt_total i i') as [L|[L|L]]; [|lia|].
        - exfalso. apply (A3 i'); [lia | exact B2].
        - exfalso. apply (B3 i); [lia | exact A2]. }
      subst i'. eexists. split; [exact Ei|]. apply sibling_placed; [exact HT | lia | exact H0].
    + intros Hno. destruct (Hno i Hi).
  - split; [intros i Hi; destruct (Hno i Hi) | intros _; exact En].
Qed.
Print Assumptions C24_prev_sibling_partial.
Theorem C24_second_page_refuted : exists n ws parent cur, toArray (n_vtd n) = Some (Ok ws) /\ ctxAt n 0 = Ok 4 /\ ctxAt n 4 = Ok cur /\
  ctxAt n 3 = Ok parent /\ prev_sibling ws parent cur 4 4 /\ toElement n DirPrevSibling = (n, Ok false).
Proof.
  exists (treeNav 2 [4; 1; 2; 3; 5] [0; 1; 2; 3; 4; 4]), (starts [0; 1; 2; 3; 4; 4]), 3, 5.
  split; [vm_compute; reflexivity|]. do 3 (split; [reflexivity|]). split; [|vm_compute; reflexivity].
  split; [lia|]. split; [split; [lia|]; eexists; repeat split; vm_compute; reflexivity|]. intros; lia.
Qed.
Print Assumptions C24_second_page_refuted.
Example C24_case : getCurrentIndex (fst (toElement (treeNav 10 [4; 1; 2; 3; 6] [0; 1; 2; 3; 4; 5; 4; 3; 4]) DirPrevSibling)) = Ok 4.
Proof. vm_compute. reflexivity. Qed.

(** ** C25: over a usable location cache *)
Theorem C25_failed_move_partial : forall n ws1 ws2 dir n' r, cur_ok n ws1 ws2 -> toElement n dir = (n', r) ->
  r = Ok false \/ (exists e, r = Err e) ->
  getCurrentIndex n' = getCurrentIndex n /\ (forall dirs, run n' dirs = run n dirs).
Proof.
  intros n ws1 ws2 dir n' r OK E F. pose proof (toElement_good n ws1 ws2 dir OK) as G. rewrite E in G.
  destruct G as [[w G]|[(G1 & G2 & G3)|(G1 & G2)]]; cbn [fst snd] in *.
  - subst r. destruct F as [F|[e F]]; discriminate.
  - split; [apply same_current; exact G2|]. intros dirs. symmetry. apply run_same with ws1 ws2; assumption.
  - subst r. destruct F as [F|[e F]]; discriminate.
Qed.
Print Assumptions C25_failed_move_partial.
(** an entry with child position 65535 (the parser's leaf marker) and no second
    level: the move reports false but the cursor has moved *)
Definition C25_nav : nav := litNav [1; 3; -1; -1] 1 0 [] (lbuf 10 []) (lbuf 10 [3 * 2^32 + 65535]) (lbuf 10 []) (lbuf 10 []) 0 0 0 0 0 0 0.
Theorem C25_failed_move_refuted : exists n n', toElement n DirFirstChild = (n', Ok false) /\
  getCurrentIndex n = Ok 3 /\ getCurrentIndex n' = Ok (-1).
Proof. exists C25_nav. eexists. repeat split; vm_compute; reflexivity. Qed.
Print Assumptions C25_failed_move_refuted.
(** C79: the invariant behind it: every sequence of moves stays inside the cache *)
Theorem C79_cursor_invariant : forall n ws1 ws2 dir, cur_ok n ws1 ws2 ->
  (exists w, snd (toElement n dir) = Panic w) \/ cur_ok (fst (toElement n dir)) ws1 ws2.
Proof.
  intros n ws1 ws2 dir OK. destruct (toElement_good n ws1 ws2 dir OK) as [G|[(_ & _ & G)|(_ & G)]]; auto.
Qed.
Print Assumptions C79_cursor_invariant.
(** <a><b><c/><d/></b><e/><f><g/></f></a>: level 1 = b e f, level 2 = c d g *)
Definition C26_l1 : list Z := [2 * 2^32 + 0; 5 * 2^32 + (2^32 - 1); 6 * 2^32 + 2].
Definition C26_l2 : list Z := [3 * 2^32 + (2^32 - 1); 4 * 2^32 + (2^32 - 1); 7 * 2^32 + (2^32 - 1)].
Definition C26_nav (ctx : list Z) (l1i l2i l2lo l2up : Z) : nav :=
  litNav ctx 1 0 [] (lbuf 10 []) (lbuf 10 C26_l1) (lbuf 10 C26_l2) (lbuf 10 []) l1i l2i 0 l2lo l2up 0 0.
Example C26_cache : forall ctx a b c d, cache_ok (C26_nav ctx a b c d) C26_l1 C26_l2.
Proof.
  intros. constructor; [apply lbuf_views; vm_compute; discriminate | apply lbuf_views; vm_compute; discriminate | | reflexivity].
  split.
  - intros i w H. destruct i as [|[|[|i]]]; cbn in H; try (injection H as <-; vm_compute; intuition congruence).
    destruct i; discriminate.
  - intros i j v w L Hv Hw Nv Nw.
    destruct i as [|[|[|i]]]; cbn in Hv; try (injection Hv as <-); try (destruct i; discriminate);
    destruct j as [|[|[|j]]]; cbn in Hw; try (injection Hw as <-); try (destruct j; discriminate); try lia; vm_compute in Nv, Nw |- *; congruence.
Qed.
Example C25_case : cur_ok (C26_nav [1; 5; -1] 1 0 0 0) C26_l1 C26_l2 /\
  snd (toElement (C26_nav [1; 5; -1] 1 0 0 0) DirFirstChild) = Ok false.
Proof.
  split; [|vm_compute; reflexivity]. split; [apply C26_cache|]. exists 1.
  constructor; [reflexivity | vm_compute; intuition congruence | vm_compute; intuition congruence | lia].
Qed.

(** ** C26 *)
Theorem C26_root_children_partial : forall n ws1 ws2 (first : bool), cache_ok n ws1 ws2 -> cursor_ok n ws1 ws2 0 -> 1 < zlen (n_ctx n) ->
  let dir := if first then DirFirstChild else DirLastChild in
  (ws1 = [] -> toElement n dir = (n, Ok false)) /\
  (forall w, nth_error ws1 (if first then O else pred (length ws1)) = Some w ->
     exists n', toElement n dir = (n', Ok true) /\ getCurrentIndex n' = Ok (entry_token w) /\ ctxAt n' 0 = Ok 1 /\
       n_l1i n' = (if first then 0 else zlen ws1 - 1)).
Proof.
  intros n ws1 ws2 first HC K R dir. assert (E : toElement n dir = toChildElement n first) by (unfold dir; destruct first; reflexivity).
  rewrite E. split.
  - intros Z. apply (child_at_0_none n ws1 ws2 HC first K Z).
  - intros w Hw. assert (Hw' : znth ws1 (if first then 0 else zlen ws1 - 1) = Some w).
    { pose proof (nth_error_Some ws1 (if first then O else pred (length ws1))). rewrite Hw in H.
      assert (NE : (0 < length ws1)%nat) by (destruct ws1; [destruct first; discriminate | cbn; lia]).
      rewrite znth_nth by (destruct first; unfold zlen; lia). rewrite <- Hw. f_equal. unfold zlen. destruct first; lia. }
    rewrite (child_at_0 n ws1 ws2 HC first w K Hw' R). eexists. split; [reflexivity|].
    destruct (placed_spec (w_l1i (if first then 0 else zlen ws1 - 1) n) 1 (entry_token w) (co_term _ _ _ HC) ltac:(navsimp; lia)) as (P1 & P2 & _).
    split; [exact P1|]. split; [exact P2 | reflexivity].
Qed.
Print Assumptions C26_root_children_partial.
Theorem C26_level1_children_partial : forall n ws1 ws2 (first : bool) w, cache_ok n ws1 ws2 -> cursor_ok n ws1 ws2 1 -> 2 < zlen (n_ctx n) ->
  nth_error ws1 (Z.to_nat (n_l1i n)) = Some w ->
  let dir := if first then DirFirstChild else DirLastChild in
  (entry_child w = -1 -> snd (toElement n dir) = Ok false) /\
  (entry_child w <> -1 -> exists lo up v n', child_range ws1 (zlen ws2) (n_l1i n) lo up /\
     nth_error ws2 (Z.to_nat (if first then lo else up)) = Some v /\
     toElement n dir = (n', Ok true) /\ getCurrentIndex n' = Ok (entry_token v) /\ ctxAt n' 0 = Ok 2 /\
     n_l2lo n' = lo /\ n_l2up n' = up /\ n_l2i n' = (if first then lo else up)).
Proof.
  intros n ws1 ws2 first w HC K R Hw dir. assert (E : toElement n dir = toChildElement n first) by (unfold dir; destruct first; reflexivity).
  pose proof (cu_1 _ _ _ _ K ltac:(lia)) as R1. assert (Hw' : znth ws1 (n_l1i n) = Some w) by (rewrite znth_nth by lia; exact Hw).
  rewrite E. split.
  - intros L. rewrite (child_at_1_leaf n ws1 ws2 HC first w K Hw' L). reflexivity.
  - intros L. pose proof (co_l2 _ _ _ HC) as (S2 & M2 & _).
    destruct (upperBound_range _ _ _ _ _ (co_l1 _ _ _ HC) (co_links _ _ _ HC) M2 Hw' L) as (up & UB & CR & B1 & B2).
    destruct (proj2 (znth_some_iff ws2 (if first then entry_child w else up)) ltac:(destruct first; lia)) as [v Hv].
    rewrite (child_at_1 n ws1 ws2 HC first w up K Hw' L UB R v Hv).
    exists (entry_child w), up, v. eexists. split; [exact CR|]. split; [rewrite <- znth_nth by (destruct first; lia); exact Hv|].
    split; [reflexivity|].
    destruct (placed_spec (w_l2i (if first then entry_child w else up) (w_l2up up (w_l2lo (entry_child w) n))) 2 (entry_token v) (co_term _ _ _ HC) ltac:(navsimp; lia)) as (P1 & P2 & _).
    split; [exact P1|]. split; [exact P2|]. repeat split.
Qed.
Print Assumptions C26_level1_children_partial.
Theorem C26_level1_siblings_partial : forall n ws1 ws2 (next : bool), cache_ok n ws1 ws2 -> cursor_ok n ws1 ws2 1 ->
  let dir := if next then DirNextSibling else DirPrevSibling in
  let i' := if next then n_l1i n + 1 else n_l1i n - 1 in
  (i' < 0 \/ zlen ws1 <= i' -> toElement n dir = (n, Ok false)) /\
  (forall w, 0 <= i' -> nth_error ws1 (Z.to_nat i') = Some w -> exists n', toElement n dir = (n', Ok true) /\
     getCurrentIndex n' = Ok (entry_token w) /\ n_l1i n' = i' /\ ctxAt n' 0 = Ok 1).
Proof.
  intros n ws1 ws2 next HC K dir i'. assert (E : toElement n dir = toSiblingElement n next) by (unfold dir; destruct next; reflexivity).
  pose proof (cu_lo _ _ _ _ K). rewrite E, (sibling_at_1 n ws1 ws2 HC next K). change (stepBy next (n_l1i n)) with i'. split.
  - intros L. apply znth_none_iff in L. rewrite L. reflexivity.
  - intros w L Hw. rewrite <- znth_nth in Hw by exact L. rewrite Hw. eexists. split; [reflexivity|].
    destruct (sibling_placed (w_l1i i' n) 1 (entry_token w) (co_term _ _ _ HC) ltac:(navsimp; lia)) as (P1 & P2 & _).
    { apply ctxAt_znth. exact (cu_c _ _ _ _ K). }
    split; [exact P1|]. split; [reflexivity | exact P2].
Qed.
Print Assumptions C26_level1_siblings_partial.
Example C26_case : getCurrentIndex (fst (toElement (C26_nav [1; 2; -1] 0 0 0 0) DirLastChild)) = Ok 4 /\
  getCurrentIndex (fst (toElement (C26_nav [0; -1; -1] 0 0 0 0) DirLastChild)) = Ok 6.
Proof. split; vm_compute; reflexivity. Qed.
(** next sibling of c (level 2) should be d = token 4; the code shows b = token 2 *)
Theorem C26_level2_sibling_refuted : exists n, cache_ok n C26_l1 C26_l2 /\ cursor_ok n C26_l1 C26_l2 2 /\ getCurrentIndex n = Ok 3 /\
  snd (toElement n DirNextSibling) = Ok true /\ getCurrentIndex (fst (toElement n DirNextSibling)) = Ok 2.
Proof.
  exists (C26_nav [2; 2; 3] 0 0 0 1). split; [apply C26_cache|]. split.
  - constructor; [reflexivity | vm_compute; intuition congruence | vm_compute; intuition congruence | vm_compute; intuition congruence].
  - repeat split; vm_compute; reflexivity.
Qed.
Print Assumptions C26_level2_sibling_refuted.

(** ** C80: what the deeper cached moves really show *)
Theorem C80_level2_child_exact : forall n ws1 ws2 (first : bool) w, cache_ok n ws1 ws2 -> cursor_ok n ws1 ws2 2 -> 3 < zlen (n_ctx n) ->
  nth_error ws2 (Z.to_nat (n_l2i n)) = Some w -> entry_child w <> -1 ->
  exists n', toElement n (if first then DirFirstChild else DirLastChild) = (n', Ok true) /\
    getCurrentIndex n' = Ok (entry_token w) /\ ctxAt n' 0 = Ok 3.
Proof.
  intros n ws1 ws2 first w HC K R Hw L.
  assert (E : toElement n (if first then DirFirstChild else DirLastChild) = toChildElement n first) by (destruct first; reflexivity).
  pose proof (cu_2 _ _ _ _ K ltac:(lia)) as (Q1 & Q2). assert (Hw' : znth ws2 (n_l2i n) = Some w) by (rewrite znth_nth by lia; exact Hw).
  destruct (child_at_2 n ws1 ws2 HC first w K Hw' L R) as (up & _ & EC). rewrite E, EC. eexists. split; [reflexivity|].
  destruct (placed_spec (w_l3i (if first then entry_child w else up) (w_l3up up (w_l3lo (entry_child w) n))) 3 (entry_token w) (co_term _ _ _ HC) ltac:(navsimp; lia)) as (P1 & P2 & _).
  split; [exact P1 | exact P2].
Qed.
Print Assumptions C80_level2_child_exact.
Theorem C80_deep_sibling_exact : forall n ws1 ws2 c dir w n', cache_ok n ws1 ws2 -> cursor_ok n ws1 ws2 c -> c = 2 \/ c = 3 ->
  dir = DirNextSibling \/ dir = DirPrevSibling -> nth_error ws1 (Z.to_nat (n_l1i n)) = Some w ->
  toElement n dir = (n', Ok true) -> getCurrentIndex n' = Ok (entry_token w).
Proof.
  intros n ws1 ws2 c dir w n' HC K Hc Hdir Hw E. pose proof (cu_1 _ _ _ _ K ltac:(lia)) as R1. pose proof (cu_lo _ _ _ _ K) as RC.
  assert (Hw' : znth ws1 (n_l1i n) = Some w) by (rewrite znth_nth by lia; exact Hw).
  assert (ES : exists nx, toElement n dir = toSiblingElement n nx) by (destruct Hdir as [-> | ->]; [exists true | exists false]; reflexivity).
  destruct ES as [nx ES]. rewrite ES in E. destruct Hc as [-> | ->].
  - rewrite (sibling_at_2 n ws1 ws2 HC nx w K Hw') in E. destruct (if nx then _ else _); [discriminate|]. injection E as <-.
    destruct (sibling_placed (w_l2i (stepBy nx (n_l2i n)) n) 2 (entry_token w) (co_term _ _ _ HC) ltac:(navsimp; lia)) as (P1 & _); [apply ctxAt_znth; exact (cu_c _ _ _ _ K) | exact P1].
  - rewrite (sibling_at_3 n ws1 ws2 HC nx w K Hw') in E. destruct (if nx then _ else _); [discriminate|]. injection E as <-.
    destruct (sibling_placed (w_l3i (stepBy nx (n_l3i n)) n) 3 (entry_token w) (co_term _ _ _ HC) ltac:(navsimp; lia)) as (P1 & _); [apply ctxAt_znth; exact (cu_c _ _ _ _ K) | exact P1].
Qed.
Print Assumptions C80_deep_sibling_exact.

(** ** C27 *)
Theorem C27_sibling_inverse : forall n cur (next : bool) n', n_term n = false -> ctxAt n 0 = Ok 1 -> ctxAt n 1 = Ok cur ->
  upper32At (n_l1 n) (n_l1i n) = Ok cur -> 0 <= n_l1i n < b_size (n_l1 n) ->
  let d1 := if next then DirNextSibling else DirPrevSibling in
  let d2 := if next then DirPrevSibling else DirNextSibling in
  toElement n d1 = (n', Ok true) -> toElement n' d2 = (n, Ok true).
Proof.
  intros n cur next n' HT H0 H1 HU HR d1 d2 E. pose proof (ctxAt_range _ _ _ H1) as R1.
  assert (E1 : forall m, toElement m d1 = toSiblingElement m next) by (intros; unfold d1; destruct next; reflexivity).
  assert (E2 : forall m, toElement m d2 = toSiblingElement m (negb next)) by (intros; unfold d2; destruct next; reflexivity).
  rewrite E1 in E. rewrite E2. clear E1 E2. unfold toSiblingElement in E. rewrite HT, H0 in E. cbn [mtry] in E.
  change ((1 =? -1) || (1 =? 0)) with false in E. change (1 =? 1) with true in E. cbn iota in E.
  destruct (if next then b_size (n_l1 n) <=? n_l1i n + 1 else n_l1i n - 1 <? 0) eqn:EB; [discriminate|].
  cbv zeta in E. cbn [w_l1i n_l1 n_l1i] in E.
  destruct (upper32At (n_l1 n) (if next then n_l1i n + 1 else n_l1i n - 1)) as [v|e|w]; cbn [mtry] in E; [|discriminate|discriminate].
  rewrite ctxSet_ok in E by (navsimp; lia). cbn [mtry] in E. injection E as <-.
  unfold toSiblingElement. navsimp. rewrite HT.
  assert (Z0 : forall c q, znth (upd (n_ctx n) (Z.to_nat 1) q) 0 = Some c <-> znth (n_ctx n) 0 = Some c).
  { intros c q. rewrite znth_upd_other by lia. reflexivity. }
  change (Pos.to_nat 1) with (Z.to_nat 1). unfold ctxAt. navsimp. change (Pos.to_nat 1) with (Z.to_nat 1). rewrite (proj2 (Z0 1 v)) by (apply ctxAt_znth; exact H0). cbn [mtry].
  change ((1 =? -1) || (1 =? 0)) with false. change (1 =? 1) with true. cbn iota.
  destruct (if negb next then _ else _) eqn:EB2; [destruct next; cbn [negb] in EB2; lia|]. cbv zeta. navsimp.
  replace (if negb next then (if next then n_l1i n + 1 else n_l1i n - 1) + 1 else (if next then n_l1i n + 1 else n_l1i n - 1) - 1) with (n_l1i n) by (destruct next; cbn [negb]; lia).
  rewrite HU. cbn [mtry]. rewrite ctxSet_ok by (navsimp; rewrite zlen_upd; lia). cbn [mtry]. f_equal.
  assert (EC : upd (upd (n_ctx n) (Z.to_nat 1) v) (Z.to_nat 1) cur = n_ctx n).
  { clear - H1. apply ctxAt_znth in H1. rewrite znth_nth in H1 by lia. change (Z.to_nat 1) with 1%nat in *.
    destruct (n_ctx n) as [|a [|b t]]; try discriminate. cbn in *. congruence. }
  unfold w_ctx, w_l1i. cbn [n_ctx n_root n_enc n_ns n_term n_ln n_xml n_vtd n_l1 n_l2 n_l3 n_l1i n_l2i n_l3i n_l2lo n_l2up n_l3lo n_l3up].
  rewrite EC. destruct n; reflexivity.
Qed.
Print Assumptions C27_sibling_inverse.
Example C27_case : let n := C26_nav [1; 5; -1] 1 0 0 0 in
  snd (toElement n DirNextSibling) = Ok true /\ toElement (fst (toElement n DirNextSibling)) DirPrevSibling = (n, Ok true).
Proof. split; vm_compute; reflexivity. Qed.

(** ** C28 and C81 *)
Theorem C28_undefined_direction_partial : forall n dir, dir < 0 \/ 5 < dir ->
  exists e, toElement n dir = (n, Err e).
Proof.
  intros n dir H. unfold toElement, DirRoot, DirParent, DirFirstChild, DirLastChild, DirNextSibling, DirPrevSibling.
  destruct (dir =? 0) eqn:E0; [lia|]. destruct (dir =? 1) eqn:E1; [lia|].
  destruct ((dir =? 2) || (dir =? 3)) eqn:E2; [lia|]. destruct ((dir =? 4) || (dir =? 5)) eqn:E3; [lia|]. eauto.
Qed.
Print Assumptions C28_undefined_direction_partial.
Theorem C28_navigation_error_refuted : exists n dir e, (dir < 0 \/ 5 < dir) /\ toElement n dir = (n, Err e) /\ ~ errors_as TNavigation e.
Proof.
  exists C21_nav, 6. eexists. split; [lia|]. split; [reflexivity|]. cbn. intros [H|H]; [discriminate | exact H].
Qed.
Print Assumptions C28_navigation_error_refuted.
Theorem C81_undefined_direction_exact : forall n dir, dir < 0 \/ 5 < dir ->
  exists e, toElement n dir = (n, Err e) /\ errors_as TParse e /\ forall t, errors_as t e -> t = TParse.
Proof.
  intros n dir H. exists (ENavigation "illegal navigation options"). split.
  - unfold toElement, DirRoot, DirParent, DirFirstChild, DirLastChild, DirNextSibling, DirPrevSibling.
    destruct (dir =? 0) eqn:E0; [lia|]. destruct (dir =? 1) eqn:E1; [lia|].
    destruct ((dir =? 2) || (dir =? 3)) eqn:E2; [lia|]. destruct ((dir =? 4) || (dir =? 5)) eqn:E3; [lia|]. reflexivity.
  - split; [left; reflexivity|]. intros t [E|E]; [symmetry; exact E | destruct E].
Qed.
Print Assumptions C81_undefined_direction_exact.
Example C81_case : snd (toElement C21_nav (-7)) = Err (ENavigation "illegal navigation options").
Proof. reflexivity. Qed.
