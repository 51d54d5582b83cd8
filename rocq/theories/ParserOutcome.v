(** Construction, and the outcome of Parse on every parser NewVtdParser builds. *)
From Verif Require Import Lib XmlChar XmlCharProofs Buffer BufferProofs Reader TokenProofs ParserState ParserPrim ParserProc ParserMain SpecParse ParserWp ParserInv ParserInvNs ParserInvTag ParserInvMain.

(** ** NewVtdParser *)
Lemma newLongBuf_ok e : 5 <= e <= 15 -> exists b, newLongBuf [e] = Ok b /\ repr e b [].
Proof.
  intros He. unfold newLongBuf. rewrite newBuf_exact. cbn [forallb last andb].
  destruct (0 <=? e) eqn:E1; [|lia]. destruct (e <=? 63) eqn:E2; [|lia]. cbn [andb].
  eexists. split; [reflexivity|]. apply repr_new. lia.
Qed.
Lemma vtdExp_range n : 5 <= vtdExp n <= 15.
Proof. unfold vtdExp. repeat (destruct (_ <=? _)); lia. Qed.
Lemma l1Exp_range b n : 5 <= l1Exp b n <= 15.
Proof. unfold l1Exp, smallExp. destruct b; repeat (destruct (_ <=? _)); lia. Qed.
Lemma l2Exp_range b n : 5 <= l2Exp b n <= 15.
Proof. unfold l2Exp, smallExp, deepExp. destruct b; repeat (destruct (_ <=? _)); lia. Qed.
Lemma l345Exp_range b n : 5 <= l345Exp b n <= 15.
Proof. unfold l345Exp, smallExp, deepExp. destruct b; repeat (destruct (_ <=? _)); lia. Qed.

(** The state right after construction. *)
Definition fresh (off : Z) (s : pst) : Prop :=
  exists vtd l1 l2 l3 l4 l5 ns1 ns2 ns3,
    s = initState off vtd l1 l2 l3 l4 l5 ns1 ns2 ns3 /\
    (exists e, repr e vtd []) /\ (exists e, repr e l1 []) /\ (exists e, repr e l2 []) /\
    (exists e, repr e l3 []) /\ (exists e, repr e l4 []) /\ (exists e, repr e l5 []).

Lemma parserInit_spec doc k : 0 <= k_offset k ->
  match parserInit doc k with
  | Ok (cf, s) => 0 <= k_end k <= zlen doc /\ cf = mkCfg doc (k_offset k) (k_length k) (k_end k) (k_ns k) (k_shallow k) /\ fresh (k_offset k) s
  | Err e => (k_end k < 0 \/ zlen doc < k_end k) /\ err_type e = TInvalidArgument
  | Panic _ => False
  end.
Proof.
  intros Ho. unfold parserInit.
  destruct (newIntBuf [6]) as [ns1|e|w] eqn:E1; [|vm_compute in E1; discriminate..]. clear E1. cbn [obind].
  destruct (newLongBuf [6]) as [ns2|e|w] eqn:E2; [|vm_compute in E2; discriminate..]. clear E2. cbn [obind].
  unfold newUtf8Reader. destruct (k_offset k <? 0) eqn:E3; [lia|].
  destruct ((k_end k <? 0) || (zlen doc <? k_end k)) eqn:E4; cbn [obind]; [split; [lia | reflexivity]|].
  destruct (newLongBuf_ok _ (vtdExp_range (k_length k))) as (vtd & -> & Rv). cbn [obind].
  destruct (newLongBuf_ok _ (l1Exp_range (k_shallow k) (k_length k))) as (l1 & -> & R1). cbn [obind].
  destruct (newLongBuf_ok _ (l2Exp_range (k_shallow k) (k_length k))) as (l2 & -> & R2). cbn [obind].
  destruct (newLongBuf_ok _ (l345Exp_range (k_shallow k) (k_length k))) as (l3 & -> & R3). cbn [obind].
  split; [lia|]. split; [reflexivity|].
  exists vtd, l1, l2, l3, l3, l3, ns1, ns2, ns2. split; [reflexivity|].
  repeat split; eexists; eassumption.
Qed.

Lemma fresh_core doc off len e ns sh s : 0 <= off -> 0 <= e <= zlen doc -> off <= e -> fresh off s ->
  Core (mkCfg doc off len e ns sh) s /\ s_depth s = -1 /\ s_off s = off /\ s_roff s = off.
Proof.
  intros Ho He Hoe (vtd & l1 & l2 & l3 & l4 & l5 & ns1 & ns2 & ns3 & -> & (e0 & R0) & (e1 & R1) & (e2 & R2) & (e3 & R3) & (e4 & R4) & (e5 & R5)).
  split; [|repeat split]. unfold initState. constructor; psimp; cbn [c_docOffset c_doc c_end]; try reflexivity; try lia.
  - split; [reflexivity|]. apply Forall_forall. intros x Hx. apply repeat_spec in Hx. subst x. unfold tagok. cbn. pose proof (zlen_nonneg doc). lia.
  - split; [reflexivity|]. split; [|lia]. apply Forall_forall. intros x Hx. apply repeat_spec in Hx. subst x. unfold attrok. cbn. pose proof (zlen_nonneg doc). lia.
  - split; [lia|]. intros j x Hj. lia.
  - split; [reflexivity|]. split; [lia | reflexivity].
  - unfold bufsOk, lbOk; psimp. repeat split; eexists; eexists; eassumption.
Qed.
Lemma fresh_bufs off s : fresh off s -> bufsOk s.
Proof.
  intros (vtd & l1 & l2 & l3 & l4 & l5 & ns1 & ns2 & ns3 & -> & (e0 & R0) & (e1 & R1) & (e2 & R2) & (e3 & R3) & (e4 & R4) & (e5 & R5)).
  unfold bufsOk, lbOk, initState; psimp. repeat split; eexists; eexists; eassumption.
Qed.

(** ** Parse *)
(** Positions reported for a document with a UTF-16 signature: line 1, and the
    column counts pairs of bytes from the start of the buffer. *)
Fixpoint errOk16 (cf : cfg) (e : goerr) : Prop :=
  match e with
  | EParse _ (Some (l, c)) => l = 1 /\ exists o, c_docOffset cf <= o <= zlen (c_doc cf) /\ c = o / 2 + 1
  | EInternal _ (Some e') => errOk16 cf e'
  | EParse _ None => False
  | EEof m => m = XmlIncomplete
  | EInvalidArg _ _ (Some e') => errOk16 cf e'
  | ENavigation _ | EModify _ => False
  | _ => True
  end.
Definition utf16_sig (cf : cfg) : Prop :=
  bytes_at (c_doc cf) (c_docOffset cf) sigBE \/ bytes_at (c_doc cf) (c_docOffset cf) sigLE.

Section Parse.
Variable cf : cfg.
Notation doc := (c_doc cf).
Hypothesis Hdo : 0 <= c_docOffset cf.
Hypothesis Hend : 0 <= c_end cf <= zlen doc.
Hypothesis Hlen : c_end cf = c_docOffset cf + c_docLength cf.

Lemma nextChar_at s b : s_roff s < c_end cf -> znth doc (s_roff s) = Some b -> s_rascii s = false ->
  nextChar cf s = ROk tt (adv (s_roff s + 1) (b2z b) s).
Proof.
  intros H1 H2 H3. unfold nextChar, bind, getChar, rdGetChar, rdr. cbn [rd_end rd_off rd_doc rd_ascii].
  destruct (c_end cf <=? s_roff s) eqn:E; [lia|]. rewrite H2, H3. unfold isUTF8. pose proof (b2z_range b).
  destruct (b2z b <=? 1114111) eqn:E2; [|lia]. reflexivity.
Qed.
Lemma nextChar_end s : c_end cf <= s_roff s -> nextChar cf s = RErr (EEof XmlIncomplete) s.
Proof.
  intros H. unfold nextChar, bind, getChar, rdGetChar, rdr. cbn [rd_end rd_off rd_doc rd_ascii].
  destruct (c_end cf <=? s_roff s) eqn:E; [|lia]. reflexivity.
Qed.
Lemma skipChar_at s b c : znth doc (s_roff s) = Some b ->
  skipChar cf c s = if c =? b2z b then ROk true (mv (s_roff s + 1) s) else ROk false (mv (s_roff s) s).
Proof.
  intros H. unfold skipChar, rdSkipChar, rdr. cbn [rd_off rd_doc]. rewrite H. destruct (c =? b2z b); reflexivity.
Qed.

Lemma appendVtd v s : lbOk (s_vtd s) -> exists b, appendTo s_vtd set_vtd v s = ROk tt (set_vtd b s) /\ lbOk b.
Proof.
  intros (e & l & R). unfold appendTo. change (s_vtd s) with (s_vtd s). destruct (bappend_repr e (s_vtd s) l v R) as (b' & -> & R').
  exists b'. split; [reflexivity|]. exists e, (l ++ [v]). exact R'.
Qed.

Definition parseOk (s : pst) : Prop :=
  match parse cf s with
  | ROk _ s' => bufsOk s' /\ ~ utf16_sig cf
  | RErr e s' => bufsOk s' /\ (errOk cf e \/ (utf16_sig cf /\ errOk16 cf e))
  | RPanic w => panicOk cf w \/ (w = PnDocIndex /\ cut_signature doc (c_docOffset cf))
  | RDiverge => divOk cf
  end.

Lemma bufs_set_vtd b s : lbOk b -> bufsOk s -> bufsOk (set_vtd b s).
Proof. unfold bufsOk; psimp. tauto. Qed.
Lemma sigBE_0 o : bytes_at doc o sigBE -> znth doc o = Some x00.
Proof. intros B. specialize (B 0 ltac:(vm_compute; split; [discriminate|reflexivity])). rewrite Z.add_0_r in B. exact B. Qed.
Lemma sigLE_0 o : bytes_at doc o sigLE -> znth doc o = Some x3c /\ znth doc (o + 1) = Some x00.
Proof.
  intros B. split; [specialize (B 0 ltac:(vm_compute; split; [discriminate|reflexivity])); rewrite Z.add_0_r in B; exact B|].
  exact (B 1 ltac:(vm_compute; split; [discriminate|reflexivity])).
Qed.

Lemma loop_be n s : s_off s = c_docOffset cf -> s_roff s = c_docOffset cf -> s_rascii s = false -> c_docOffset cf < c_end cf ->
  s_enc s = FormatUtf16BE -> znth doc (c_docOffset cf) = Some x00 ->
  exists m c s', parseLoop cf (S (S n)) StDocStart s = RErr (EParse m (Some (1, c))) s' /\ c = (c_docOffset cf + 1) / 2 + 1 /\
    s_vtd s' = s_vtd s /\ s_l1 s' = s_l1 s /\ s_l2 s' = s_l2 s /\ s_l3 s' = s_l3 s /\ s_l4 s' = s_l4 s /\ s_l5 s' = s_l5 s.
Proof.
  intros Ho Hr Ha He Henc H0. cbn [parseLoop]. unfold catch at 1. cbn [step]. unfold processDocStart. rewrite bindE.
  rewrite (nextChar_at s x00) by (rewrite ?Hr; assumption). rewrite bindE. unfold get at 1. cbv beta iota.
  change (s_cur (adv (s_roff s + 1) (b2z x00) s)) with 0. cbn [Z.eqb orb]. cbv iota. unfold ret at 1. cbn [parseLoop]. unfold catch at 1. cbn [step].
  unfold parseErr, fmtLine. rewrite !bindE. unfold get at 1. unfold fmtCustomLine. cbv beta iota.
  change (s_enc (adv (s_roff s + 1) (b2z x00) s)) with (s_enc s). rewrite Henc.
  change (FormatUtf16BE <? FormatUtf16BE) with false. change (FormatUtf16BE =? FormatUtf16BE) with true. cbv iota.
  change (s_off (adv (s_roff s + 1) (b2z x00) s)) with (s_roff s + 1). rewrite Hr.
  replace (Z.to_nat ((c_docOffset cf + 1 - c_docOffset cf) / 2)) with O by lia. cbn [lineScan16].
  unfold fail at 1. cbv beta iota. cbn [as_eof andb]. eexists _, _, _. split; [reflexivity|].
  split; [rewrite Z.shiftr_div_pow2 by lia; f_equal; f_equal; lia|]. repeat split.
Qed.
Lemma loop_le n s : s_off s = c_docOffset cf -> s_roff s = c_docOffset cf -> s_rascii s = false -> c_docOffset cf < c_end cf ->
  s_enc s = FormatUtf16LE -> znth doc (c_docOffset cf) = Some x3c -> znth doc (c_docOffset cf + 1) = Some x00 ->
  exists e s', parseLoop cf (S (S n)) StDocStart s = RErr e s' /\
    (e = EInternal "failed to parse LT seen" (Some (EEof XmlIncomplete)) \/
     exists m, e = EParse m (Some (1, (c_docOffset cf + 2) / 2 + 1))) /\
    s_vtd s' = s_vtd s /\ s_l1 s' = s_l1 s /\ s_l2 s' = s_l2 s /\ s_l3 s' = s_l3 s /\ s_l4 s' = s_l4 s /\ s_l5 s' = s_l5 s.
Proof.
  intros Ho Hr Ha He Henc H0 H1. cbn [parseLoop]. unfold catch at 1. cbn [step]. unfold processDocStart. rewrite bindE.
  rewrite (nextChar_at s x3c) by (rewrite ?Hr; assumption). rewrite bindE. unfold get at 1. cbv beta iota.
  change (s_cur (adv (s_roff s + 1) (b2z x3c) s)) with 60. change (60 =? CH_LT) with true. cbv iota.
  set (s1 := adv (s_roff s + 1) (b2z x3c) s). rewrite bindE. unfold markLast at 1. rewrite bindE. unfold get at 1, modify at 1. cbv beta iota.
  set (s2 := set_last (s_off s1) s1). rewrite bindE. unfold skipXmlDecl. unfold andM at 1. rewrite bindE.
  rewrite (skipChar_at s2 x00) by (subst s2 s1; unfold adv, mv; psimp; rewrite Hr; assumption).
  change (CH_QM =? b2z x00) with false. cbv iota. unfold ret at 1. rewrite bindE. unfold get at 1. rewrite bindE. unfold modify at 1, ret at 1. cbv beta iota.
  match goal with |- context [catch (step cf StLtSeen) _ _ ?x] => set (s3 := x) end.
  assert (R3 : s_roff s3 = c_docOffset cf + 1) by (subst s3 s2 s1; unfold adv, mv; psimp; rewrite Hr; reflexivity).
  assert (A3 : s_rascii s3 = false) by exact Ha. assert (E3 : s_enc s3 = FormatUtf16LE) by exact Henc.
  assert (B3 : s_vtd s3 = s_vtd s /\ s_l1 s3 = s_l1 s /\ s_l2 s3 = s_l2 s /\ s_l3 s3 = s_l3 s /\ s_l4 s3 = s_l4 s /\ s_l5 s3 = s_l5 s) by (repeat split).
  clearbody s3. clear s2 s1. unfold catch at 1. cbn [step]. unfold processLtSeen. rewrite bindE.
  unfold markLast at 1. rewrite bindE. unfold get at 1, modify at 1. cbv beta iota.
  unfold catch at 1. match goal with |- context [nextChar cf ?x] => set (s4 := x) end.
  assert (R4 : s_roff s4 = c_docOffset cf + 1) by exact R3. assert (A4 : s_rascii s4 = false) by exact A3.
  assert (E4 : s_enc s4 = FormatUtf16LE) by exact E3.
  destruct (Z.ltb_spec (s_roff s4) (c_end cf)) as [L|L].
  - rewrite (nextChar_at s4 x00) by (rewrite ?R4; first [assumption | lia]). rewrite bindE. unfold get at 1. cbv beta iota.
    change (s_cur (adv (s_roff s4 + 1) (b2z x00) s4)) with 0. change (isNameStartChar 0) with false.
    change (0 =? CH_SLASH) with false. change (0 =? CH_EXCL) with false. change (0 =? CH_QM) with false. cbv iota.
    unfold parseErr, fmtLine. rewrite !bindE. unfold get at 1. unfold fmtCustomLine. cbv beta iota.
    change (s_enc (adv (s_roff s4 + 1) (b2z x00) s4)) with (s_enc s4). rewrite E4.
    change (FormatUtf16LE <? FormatUtf16BE) with false. change (FormatUtf16LE =? FormatUtf16BE) with false. cbv iota.
    change (s_off (adv (s_roff s4 + 1) (b2z x00) s4)) with (s_roff s4 + 1). rewrite R4.
    replace (Z.to_nat ((c_docOffset cf + 1 + 1 - c_docOffset cf) / 2)) with 1%nat by lia. cbn [lineScan16]. rewrite H0.
    change (b2z x3c =? CH_LF) with false. cbv iota. unfold fail at 1. cbv beta iota. cbn [as_eof andb].
    eexists _, _. split; [reflexivity|]. split; [right; eexists; rewrite Z.shiftr_div_pow2 by lia; change (2 ^ 1) with 2; replace (c_docOffset cf + 1 + 1 - 0) with (c_docOffset cf + 2) by lia; reflexivity|]. exact B3.
  - rewrite (nextChar_end s4) by lia. unfold fail at 2. cbv beta iota. cbn [as_eof andb isDocEnd]. unfold fail.
    eexists _, _. split; [reflexivity|]. split; [left; reflexivity|]. exact B3.
Qed.

Lemma loop_empty n s : c_end cf <= s_roff s -> parseLoop cf (S n) StDocStart s = RErr (EEof XmlIncomplete) s.
Proof.
  intros H. cbn [parseLoop]. unfold catch at 1. cbn [step]. unfold processDocStart. rewrite bindE.
  rewrite nextChar_end by exact H. reflexivity.
Qed.

Lemma parse_outcome s : fresh (c_docOffset cf) s -> parseOk s.
Proof.
  intros F. pose proof (fresh_bufs _ _ F) as B.
  assert (Ho : s_off s = c_docOffset cf /\ s_roff s = c_docOffset cf /\ s_rascii s = false /\ s_enc s = 0 /\ s_inc s = 1 /\ s_single s = true).
  { destruct F as (? & ? & ? & ? & ? & ? & ? & ? & ? & -> & _). repeat split. }
  destruct Ho as (Ho & Hr & Ha & He & Hi & Hsi).
  pose proof (decide_spec cf s Hdo Ho He Hi Hsi) as D. unfold parseOk, parse. rewrite bindE.
  destruct (decideEncoding cf s) as [u s1|e s1|w|]; [| | |contradiction].
  2:{ destruct D as (sc & sn & -> & D). split; [exact B|]. left. destruct D as [(-> & _)|(m & -> & _)]; exact I. }
  2:{ right. rewrite <- Ho. exact D. }
  rewrite Ho in D. destruct D as (D1 & D2 & D3).
  assert (Hd : s_depth s = -1) by (destruct F as (? & ? & ? & ? & ? & ? & ? & ? & ? & -> & _); reflexivity).
  rewrite bindE. unfold get at 1. cbv beta iota. rewrite bindE. unfold writeVtd.
  assert (B1 : bufsOk s1) by (destruct D3 as [(-> & _)|[(-> & _)|(-> & _)]]; exact B).
  match goal with |- context [appendTo s_vtd set_vtd ?v s1] => destruct (appendVtd v s1 (proj1 B1)) as (b & Eb & Lb) end.
  rewrite Eb.
  assert (B2 : bufsOk (set_vtd b s1)) by (apply bufs_set_vtd; assumption).
  destruct (Z.ltb_spec (c_docOffset cf) (c_end cf)) as [L|L].
  - destruct D3 as [(-> & (b0 & Hb0 & Hnz) & HnLE)|[(-> & Hsig)|(-> & Hsig)]].
    + assert (Hns : ~ utf16_sig cf).
      { intros [S|S]; [|tauto]. apply sigBE_0 in S. congruence. }
      assert (C : Core cf s).
      { destruct cf as [d o ln en ns sh]. cbn [c_docOffset c_end c_doc c_docLength] in *. subst en. apply fresh_core; [lia..|exact F]. }
      pose proof (wp_parseLoop cf Hdo Hend ltac:(lia) (fuel cf) StDocStart (set_vtd b s)) as W. unfold wp in W.
      specialize (W ltac:(split; [core | psimp; lia])). specialize (W (fuel_ok cf (set_vtd b s) ltac:(core))).
      destruct (parseLoop cf (fuel cf) StDocStart (set_vtd b s)); tauto.
    + apply sigBE_0 in Hsig as H0.
      destruct (loop_be (length doc) (set_vtd b (set_single false (set_inc 2 (set_enc FormatUtf16BE s)))) Ho Hr Ha L eq_refl H0)
        as (m & c & s' & E & Ec & V0 & V1 & V2 & V3 & V4 & V5).
      unfold fuel. rewrite E. split; [eapply bufs_eq; [..|exact B2]; assumption|]. right. split; [left; exact Hsig|].
      cbn [errOk16]. split; [reflexivity|]. exists (c_docOffset cf + 1). split; [lia | exact Ec].
    + destruct (sigLE_0 _ Hsig) as [H0 H1].
      destruct (loop_le (length doc) (set_vtd b (set_single false (set_inc 2 (set_enc FormatUtf16LE s)))) Ho Hr Ha L eq_refl H0 H1)
        as (e & s' & E & Ec & V0 & V1 & V2 & V3 & V4 & V5).
      unfold fuel. rewrite E. split; [eapply bufs_eq; [..|exact B2]; assumption|]. right. split; [right; exact Hsig|].
      apply znth_range in H1.
      destruct Ec as [->|(m & ->)]; cbn [errOk16]; [reflexivity|]. split; [reflexivity|]. exists (c_docOffset cf + 2). split; [lia | reflexivity].
  - unfold fuel. rewrite loop_empty; [split; [exact B2 | left; reflexivity]|].
    destruct D3 as [(-> & _)|[(-> & _)|(-> & _)]]; psimp; lia.
Qed.
End Parse.
