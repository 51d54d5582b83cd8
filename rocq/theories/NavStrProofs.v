(** String extraction. *)
From Verif Require Import Lib Buffer ParserPrim Nav BufferProofs SpecNav.

Definition byteEnc (enc : Z) : bool := (enc =? FormatAscii) || (enc =? FormatIso88591) || (enc =? FormatUtf8).

Lemma loByte_of z b : z mod 256 = b2z b -> loByte z = b.
Proof.
  intros H. unfold loByte. rewrite H. unfold b2z. rewrite N2Z.id. rewrite Byte.of_to_N. reflexivity.
Qed.
Lemma wide_byte b w : 0 <= w -> (Z.lor b (Z.shiftl w 32)) = Z.lor (w * 2^32) b.
Proof. intros. rewrite Z.shiftl_mul_pow2 by lia. apply Z.lor_comm. Qed.
Lemma wide_val z w : 0 <= w -> 0 <= z <= 255 -> Z.lor z (Z.shiftl w 32) = w * 2^32 + z.
Proof. intros. rewrite wide_byte by lia. apply lor_disjoint; lia. Qed.

(** The byte shown for document byte [b] followed by [next]. *)
Definition shownByte (enc : Z) (b : byte) (next : option byte) : byte :=
  if byteEnc enc then
    if b2z b =? CH_CR then match next with Some _ => LF | None => x00 end else b
  else x00.
Lemma navGetChar_none n i : znth (n_xml n) i = None -> navGetChar n i = Err (idxErr None).
Proof. intros H. unfold navGetChar, nByteAt. rewrite byteAt_exact, H. reflexivity. Qed.
Lemma navGetChar_some n i b : znth (n_xml n) i = Some b ->
  match navGetChar n i with
  | Ok c => n_enc n <= FormatWin1258 /\ loByte c = shownByte (n_enc n) b (znth (n_xml n) (i + 1)) /\ (c = 0 \/ 2^32 <= c < 2^34)
  | Err _ => FormatWin1258 < n_enc n
  | Panic _ => False
  end.
Proof.
  intros H. unfold navGetChar, nByteAt. rewrite !byteAt_exact, H. cbn [obind]. fold (byteEnc (n_enc n)). unfold shownByte.
  pose proof (b2z_range b) as Hb. destruct (byteEnc (n_enc n)) eqn:E.
  - assert (n_enc n <= FormatWin1258) by (unfold byteEnc, FormatAscii, FormatIso88591, FormatUtf8, FormatWin1258 in *; lia).
    destruct (b2z b =? CH_CR) eqn:EC.
    + destruct (znth (n_xml n) (i + 1)) as [c|] eqn:EN.
      * cbn [obind]. pose proof (b2z_range c) as Hc. destruct (b2z c =? CH_LF) eqn:EL.
        -- rewrite wide_val by lia. split; [assumption|]. split; [|right; lia]. apply loByte_of.
           change (b2z LF) with CH_LF. lia.
        -- rewrite wide_val by lia. split; [assumption|]. split; [|right; lia]. reflexivity.
      * split; [assumption|]. split; [reflexivity | left; reflexivity].
    + rewrite wide_val by lia. split; [assumption|]. split; [|right; lia]. apply loByte_of. lia.
  - destruct ((n_enc n =? FormatUtf16BE) || (n_enc n =? FormatUtf16LE)) eqn:E2.
    + split; [unfold FormatUtf16BE, FormatUtf16LE, FormatWin1258 in *; lia|]. split; [reflexivity | left; reflexivity].
    + destruct (FormatWin1258 <? n_enc n) eqn:E3; [lia|]. split; [lia|]. split; [reflexivity | left; reflexivity].
Qed.

(** No entity is ever resolved: the comparison with '&' sees the width bits. *)
Lemma navGetCharResolved_raw n i :
  navGetCharResolved n i = nbind (Some (navGetChar n i)) (fun c => Some (Ok (u32 c))).
Proof.
  unfold navGetCharResolved. destruct (znth (n_xml n) i) as [b|] eqn:E.
  - pose proof (navGetChar_some n i b E) as H. destruct (navGetChar n i) as [c| |]; [|reflexivity|reflexivity].
    cbn [nbind]. destruct H as (_ & _ & H). destruct (c =? CH_AMP) eqn:EA; [lia | reflexivity].
  - rewrite navGetChar_none by assumption. reflexivity.
Qed.
Lemma loByte_u32 c : loByte (u32 c) = loByte c.
Proof. unfold loByte, u32. replace (c mod 2^32 mod 256) with (c mod 256) by lia. reflexivity. Qed.

Lemma strLoop_ext g h : (forall i, nbind (g i) (fun c => Some (Ok (loByte c))) = nbind (h i) (fun c => Some (Ok (loByte c)))) ->
  forall k i acc, strLoop g k i acc = strLoop h k i acc.
Proof.
  intros H. induction k as [|k IH]; intros i acc; cbn [strLoop]; [reflexivity|].
  specialize (H i). destruct (g i) as [[c|e|w]|], (h i) as [[c'|e'|w']|]; cbn [nbind] in *; try congruence.
Qed.
Lemma toString_eq_raw n o l : toStringAtRange n o l = toRawStringAtRange n o l.
Proof.
  unfold toStringAtRange, toRawStringAtRange. apply strLoop_ext. intros i. rewrite navGetCharResolved_raw.
  destruct (navGetChar n i) as [c|e|w]; cbn [nbind]; [rewrite loByte_u32|..]; reflexivity.
Qed.

(** The shown bytes for any encoding. *)
Fixpoint shownEnc (enc : Z) (k : nat) (l : list byte) : list byte :=
  match k, l with
  | S k', b :: t => shownByte enc b (hd_error t) :: shownEnc enc k' t
  | _, _ => []
  end.
Lemma b2z_cr b : (b2z b =? CH_CR) = match b with x0d => true | _ => false end.
Proof. destruct b; reflexivity. Qed.
Lemma shownEnc_byte enc : byteEnc enc = true -> forall k l, shownEnc enc k l = shown k l.
Proof.
  intros He. induction k as [|k IH]; intros l; [destruct l; reflexivity|]. destruct l as [|b t]; [reflexivity|].
  cbn [shownEnc shown]. rewrite IH. unfold shownByte. rewrite He, b2z_cr.
  destruct b; try reflexivity. destruct t; [|reflexivity]. destruct k; reflexivity.
Qed.
Lemma shownEnc_other enc : byteEnc enc = false -> forall k l, (k <= length l)%nat -> shownEnc enc k l = repeat x00 k.
Proof.
  intros He. induction k as [|k IH]; intros l Hl; [destruct l; reflexivity|]. destruct l as [|b t]; [cbn in Hl; lia|].
  cbn [shownEnc repeat]. cbn [length] in Hl. rewrite IH by lia. unfold shownByte. rewrite He. reflexivity.
Qed.

Lemma rawLoop_ok n : n_enc n <= FormatWin1258 -> forall k i acc, 0 <= i -> i + Z.of_nat k <= zlen (n_xml n) ->
  strLoop (fun i => Some (navGetChar n i)) k i acc =
  Some (Ok (rev acc ++ shownEnc (n_enc n) k (skipn (Z.to_nat i) (n_xml n)))).
Proof.
  intros He. induction k as [|k IH]; intros i acc Hi Hk.
  - cbn [strLoop]. destruct (skipn _ _); cbn [shownEnc]; rewrite app_nil_r; reflexivity.
  - cbn [strLoop]. destruct (proj2 (znth_some_iff (n_xml n) i) ltac:(lia)) as [b Hb].
    pose proof (navGetChar_some n i b Hb) as HG. destruct (navGetChar n i) as [c|e|w]; [|lia|contradiction].
    destruct HG as (_ & HG & _). cbn [nbind]. rewrite IH by lia. cbn [rev]. rewrite <- app_assoc. cbn [app].
    rewrite znth_nth in Hb by lia. rewrite (skipn_nth_cons _ _ _ Hb). cbn [shownEnc]. do 4 f_equal.
    + rewrite HG. f_equal. rewrite znth_nth by lia. replace (Z.to_nat (i + 1)) with (S (Z.to_nat i)) by lia.
      destruct (nth_error (n_xml n) (S (Z.to_nat i))) as [x|] eqn:E.
      * rewrite (skipn_nth_cons _ _ _ E). reflexivity.
      * apply nth_error_None in E. rewrite skipn_all2 by lia. reflexivity.
    + replace (Z.to_nat (i + 1)) with (S (Z.to_nat i)) by lia. reflexivity.
Qed.
Lemma rawLoop_err n k : forall i acc, (0 < k)%nat -> (i < 0 \/ zlen (n_xml n) < i + Z.of_nat k \/ FormatWin1258 < n_enc n) ->
  exists e, strLoop (fun i => Some (navGetChar n i)) k i acc = Some (Err e).
Proof.
  induction k as [|k IH]; intros i acc Hk H; [lia|]. cbn [strLoop].
  destruct (znth (n_xml n) i) as [b|] eqn:E.
  - pose proof (navGetChar_some n i b E) as HG. pose proof (znth_range _ _ _ E).
    destruct (navGetChar n i) as [c|e|w]; [|cbn [nbind]; eauto|contradiction].
    cbn [nbind]. apply IH; lia.
  - rewrite navGetChar_none by assumption. cbn [nbind]. eauto.
Qed.

(** ** All ranges *)
Definition in_i32 (x : Z) : Prop := -2^31 <= x < 2^31.
Lemma rawRange_empty n o l : wrap32 (o + l) <= o -> toRawStringAtRange n o l = Some (Ok []).
Proof. intros H. unfold toRawStringAtRange. replace (Z.to_nat _) with O by lia. reflexivity. Qed.
Lemma rawRange_ok n o l : o < wrap32 (o + l) -> 0 <= o -> wrap32 (o + l) <= zlen (n_xml n) -> n_enc n <= FormatWin1258 ->
  toRawStringAtRange n o l = Some (Ok (shownEnc (n_enc n) (Z.to_nat (wrap32 (o + l) - o)) (skipn (Z.to_nat o) (n_xml n)))).
Proof. intros. unfold toRawStringAtRange. rewrite rawLoop_ok by lia. reflexivity. Qed.
Lemma rawRange_err n o l : o < wrap32 (o + l) -> (o < 0 \/ zlen (n_xml n) < wrap32 (o + l) \/ FormatWin1258 < n_enc n) ->
  exists e, toRawStringAtRange n o l = Some (Err e).
Proof. intros. unfold toRawStringAtRange. apply rawLoop_err; lia. Qed.
Lemma i32_sum o l : in_i32 o -> in_i32 l ->
  wrap32 (o + l) = (if o + l <? -2^31 then o + l + 2^32 else if 2^31 <=? o + l then o + l - 2^32 else o + l).
Proof. unfold in_i32, wrap32. intros. destruct (o + l <? -2^31) eqn:E; [lia|]. destruct (2^31 <=? o + l) eqn:E2; lia. Qed.

(** ** Line ends *)
Lemma shown_no_cr k : forall l, (k <= length l)%nat -> ~ In CR (firstn k l) -> shown k l = firstn k l.
Proof.
  induction k as [|k IH]; intros l Hl H; [destruct l; reflexivity|]. destruct l as [|b t]; [reflexivity|].
  cbn [firstn] in *. cbn [length] in Hl. cbn [In] in H.
  assert (E : shown (S k) (b :: t) = b :: shown k t).
  { cbn [shown]. destruct b; try reflexivity. exfalso. apply H. left. reflexivity. }
  rewrite E, IH; [reflexivity | lia | tauto].
Qed.
Lemma shown_normalize k : forall l, (k <= length l)%nat -> has_crlf (firstn k l) = false ->
  (forall p, firstn k l <> p ++ [CR] \/ skipn k l <> []) -> shown k l = normalize (firstn k l).
Proof.
  induction k as [|k IH]; intros l Hl H Hlast; [destruct l; reflexivity|]. destruct l as [|b t]; [reflexivity|].
  cbn [firstn skipn length] in *.
  assert (HT : has_crlf (firstn k t) = false).
  { cbn [has_crlf] in H. destruct b; try exact H. destruct (firstn k t) as [|c u]; [reflexivity|]. destruct c; try exact H; discriminate. }
  assert (IHT : shown k t = normalize (firstn k t)).
  { apply IH; [lia | exact HT|]. intros p. destruct (Hlast (b :: p)) as [A|A]; [left | right; exact A].
    intros E. apply A. rewrite E. reflexivity. }
  destruct (b2z b =? CH_CR) eqn:EC; rewrite b2z_cr in EC.
  - destruct b; try discriminate EC. cbn [shown normalize].
    destruct t as [|c u].
    + destruct k; [|cbn in Hl; lia]. destruct (Hlast []) as [A|A]; exfalso; apply A; reflexivity.
    + rewrite IHT. destruct (firstn k (c :: u)) as [|d v] eqn:EF; [reflexivity|].
      destruct d; try reflexivity. cbn [has_crlf] in H. discriminate.
  - assert (E : shown (S k) (b :: t) = b :: shown k t) by (cbn [shown]; destruct b; try discriminate EC; reflexivity).
    assert (E2 : normalize (b :: firstn k t) = b :: normalize (firstn k t)) by (cbn [normalize]; destruct b; try discriminate EC; reflexivity).
    rewrite E, E2, IHT. reflexivity.
Qed.
