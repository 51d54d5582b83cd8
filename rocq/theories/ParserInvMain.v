(** The invariant through the XML declaration and the main loop; decideEncoding;
    the outcome of Parse on every configuration NewVtdParser can build. *)
From Verif Require Import Lib XmlChar XmlCharProofs Buffer BufferProofs Reader TokenProofs ParserState ParserPrim ParserProc ParserMain SpecParse ParserWp ParserInv ParserInvNs ParserInvTag.

Section Main.
Variable cf : cfg.
Notation doc := (c_doc cf).
Hypothesis Hdo : 0 <= c_docOffset cf.
Hypothesis Hend : 0 <= c_end cf <= zlen doc.
Hypothesis Hend31 : c_end cf < 2^31.
Notation Core := (Core cf).
Notation wp := (wp cf).
Variable B : Z.
Notation post := (postR cf B).
Notation room := (room cf B).
Notation Inv := (Inv cf).

(** ** process_dec_attr_name.go *)
Definition decAdv (s s' : pst) : Prop :=
  s_depth s' = s_depth s /\ s_off s' = s_roff s' /\ s_roff s <= s_roff s' /\ b_size (s_vtd s') - s_roff s' <= b_size (s_vtd s) - s_roff s.
Definition decAdv1 (s s' : pst) : Prop :=
  s_depth s' = s_depth s /\ s_off s' = s_roff s' /\ s_roff s <= s_roff s' /\ b_size (s_vtd s') - s_roff s' <= b_size (s_vtd s) - s_roff s + 1.
Ltac decadv := unfold decAdv, decAdv1; psimp; intuition lia.

Lemma cannotSwitch_true s (Q : bool -> pst -> Prop) : Core s -> Q true s -> wp cannotSwitch s Q.
Proof. intros H HQ. unfold cannotSwitch. stepsx. exact HQ. Qed.
Lemma wp_skipEitherCase l s (Q : bool -> pst -> Prop) : Core s -> (forall c, In c l -> c <> 0) -> (forall c, In c (upperCodes l) -> c <> 0) ->
  (forall b s', Core s' -> scanc s s' -> s_roff s <= s_roff s' -> Q b s') -> wp (skipEitherCase cf l) s Q.
Proof.
  intros H H1 H2 HQ. unfold skipEitherCase. apply wp_orM. apply (wp_skipCharSeq cf Hend); [exact H | exact H1|].
  intros b s1 HC1 Sc1 R1. destruct b; [apply HQ; assumption|].
  apply (wp_skipCharSeq cf Hend); [exact HC1 | exact H2|]. intros b s2 HC2 Sc2 R2. apply HQ; [exact HC2 | scantac | lia].
Qed.
Ltac either := apply wp_skipEitherCase; [core | cbn; intuition lia | cbn; intuition lia |];
  let b := fresh "b" in intros b; sintro1.
Lemma wp_asciis s (Q : unit -> pst -> Prop) : Core s -> wp (checkAsciiEncoding cf) s Q.
Proof. intros H. unfold checkAsciiEncoding. stepsx. either. stepsx. apply cannotSwitch_true; [core|]. stepsx. Qed.
Lemma wp_usasciis s (Q : unit -> pst -> Prop) : Core s -> wp (checkUsAsciiEncoding cf) s Q.
Proof. intros H. unfold checkUsAsciiEncoding. stepsx. either. stepsx. apply cannotSwitch_true; [core|]. stepsx. Qed.
Lemma wp_iso s (Q : unit -> pst -> Prop) : Core s -> wp (checkIsoEncoding cf) s Q.
Proof. intros H. unfold checkIsoEncoding. stepsx. either. stepsx. apply cannotSwitch_true; [core|]. stepsx. Qed.
Lemma wp_utf s (Q : unit -> pst -> Prop) : Core s -> s_off s = s_roff s ->
  (forall s', Core s' -> decAdv1 s s' -> Q tt s') -> wp (checkUtfEncoding cf) s Q.
Proof. intros H Ho HQ. facts H. unfold checkUtfEncoding. stepsx; try discriminate; apply HQ; [core | decadv]. Qed.
Lemma wp_win l n m s (Q : unit -> pst -> Prop) : Core s -> (forall c, In c l -> c <> 0) -> (forall c, In c (upperCodes l) -> c <> 0) ->
  (forall s', Core s' -> decAdv1 s s' -> Q tt s') -> wp (checkWinEncoding cf l n m) s Q.
Proof.
  intros H H1 H2 HQ. facts H. unfold checkWinEncoding. stepsx. apply wp_skipEitherCase; [core | assumption..|].
  intros b; sintro1. stepsx. apply HQ; [core | decadv].
Qed.
Lemma wp_processDecEncodingAttr s (Q : unit -> pst -> Prop) : Core s -> s_off s = s_roff s ->
  (forall s', Core s' -> decAdv s s' -> Q tt s') -> wp (processDecEncodingAttr cf) s Q.
Proof.
  intros H Ho HQ. facts H. unfold processDecEncodingAttr. stepx1. stepx1. stepx1. stepx1. stepx1; [stepsx|].
  stepx1. stepx1. stepx1. stepx1. stepx1. stepx1. stepx1; [stepsx|]. do 8 stepx1.
  assert (T : forall sx, Core sx -> decAdv s sx -> wp (nextChar cf ;;;
      c <- get s_cur ;;
      if notQuote c then parseErr cf "invalid char to start attribute name"
      else
        nextCharAfterWs cf ;;;
        s <- get (fun s => s) ;;
        modify (set_last (s_off s - s_inc s))) sx Q).
  { intros sx Hx' (D1 & D2 & D3 & D4). facts Hx'. stepsx. apply HQ; [core | decadv]. }
  apply wp_bind.
  stepx1; [apply wp_asciis; core|].
  stepx1; [apply wp_win; [core | cbn; intuition lia | cbn; intuition lia |]; intros sx Hx' A3; apply T; [exact Hx' | unfold decAdv, decAdv1 in *; ifs; lia]|].
  stepx1; [apply wp_iso; core|].
  stepx1.
  { do 3 stepx1; [apply wp_usasciis; core|]. apply wp_utf; [core | tauto |]. intros sx Hx' A3; apply T; [exact Hx' | unfold decAdv, decAdv1 in *; ifs; lia]. }
  stepx1; [apply wp_win; [core | cbn; intuition lia | cbn; intuition lia |]; intros sx Hx' A3; apply T; [exact Hx' | unfold decAdv, decAdv1 in *; ifs; lia]|].
  stepsx.
Qed.
Lemma wp_processDecStandaloneAttr s (Q : unit -> pst -> Prop) : Core s -> s_off s = s_roff s ->
  (forall s', Core s' -> decAdv s s' -> Q tt s') -> wp (processDecStandaloneAttr cf) s Q.
Proof. intros H Ho HQ. facts H. unfold processDecStandaloneAttr. stepsx; apply HQ; [core | decadv | core | decadv]. Qed.
Lemma wp_decVersionName s (Q : unit -> pst -> Prop) : Core s -> s_off s = s_roff s ->
  (forall s', Core s' -> decAdv s s' -> Q tt s') -> wp (decVersionName cf) s Q.
Proof. intros H Ho HQ. facts H. unfold decVersionName. stepsx. apply HQ; [core | decadv]. Qed.
Lemma wp_decEnd s0 s : Core s -> s_depth s <= 254 -> s_off s = s_roff s -> s_roff s0 < s_roff s -> b_size (s_vtd s) + 1 <= s_roff s - c_docOffset cf + B -> wp (decEnd cf) s (post s0).
Proof. intros H Hd Ho Hr Hv. facts H. unfold decEnd. stepsx. fin. Qed.
Ltac decin := let s' := fresh "sz" in let H := fresh "Hz" in let A := fresh "A" in let B := fresh "B" in let C := fresh "C" in
  let D := fresh "D" in intros s' H (A & B & C & D); psimp_in A; psimp_in C; psimp_in D; facts H.
Lemma wp_processDecAttrName s : Inv StDecAttrName s -> room StDecAttrName s -> wp (processDecAttrName cf) s (post s).
Proof.
  intros [H [Hd Ho]] Hv. unfold ParserInv.room in Hv. facts H. unfold processDecAttrName. apply wp_bind, wp_decVersionName; [assumption..|].
  intros s1 H1' (D1 & D2 & D3 & V1). facts H1'. do 4 stepx1. stepx1; [stepsx|]. do 4 stepx1.
  assert (Hq : s_cur s0 <> 0) by (unfold notQuote in Heqb; lia).
  assert (T : forall sx, Core sx -> s_depth sx <= 254 -> s_roff s < s_roff sx -> b_size (s_vtd sx) + 1 <= s_roff sx - c_docOffset cf + B -> wp (nextChar cf ;;;
        c <- get s_cur ;;
        (if isSpaceChar c then
           nextCharAfterWs cf ;;;
           s <- get (fun s => s) ;;
           modify (set_last (s_off s - s_inc s)) ;;;
           c <- get s_cur ;;
           (if c =? 101 then
              b <- skipCharSeq cf (codes "ncoding") ;;
              if b then processDecEncodingAttr cf else parseErr cf "declaration should be encoding"
            else ret tt) ;;;
           c <- get s_cur ;;
           (if c =? 115 then
              b <- skipCharSeq cf (codes "tandalone") ;;
              if b then processDecStandaloneAttr cf else parseErr cf "declaration should be standalone"
            else ret tt)
         else ret tt) ;;;
        decEnd cf) sx (post s)).
  { intros sx Hx' D4 R4 V4. facts Hx'.
    repeat first [ apply wp_processDecEncodingAttr; [core | psimp; tauto |]; decin
                 | apply wp_processDecStandaloneAttr; [core | psimp; tauto |]; decin
                 | apply wp_decEnd; [core | psimp; lia..]
                 | stepx1 ]. }
  repeat first [apply T; [core | psimp; lia..] | stepx1].
Qed.

(** ** The main loop *)
(** A step that arrives behind the root element has not read past the end of
    the window, unless it is the end of a processing instruction. *)
Definition isPiEnd (ps : pstate) : bool := match ps with StPiEnd => true | _ => false end.
Definition postStep (ps : pstate) (s0 : pst) (ps' : pstate) (s : pst) : Prop :=
  Inv ps' s /\ s_roff s0 < s_roff s /\ match ps' with
  | StDocEnd => if isPiEnd ps then upTo cf s else s_roff s <= c_end cf
  | StPiEnd => ps = StDocEnd
  | _ => True
  end.
Definition postStepR (ps : pstate) (s0 : pst) (ps' : pstate) (s : pst) : Prop := postStep ps s0 ps' s /\ room ps' s.
Lemma wp_post m s (d : pstate) : wp m s (post s) -> isPiEnd d = false -> wp m s (postStepR d s).
Proof.
  intros W E. eapply wp_conseq; [exact W|]. intros ps s' ((A & C & D) & R). split; [|exact R]. split; [exact A|]. split; [exact C|].
  destruct ps; try exact I; [rewrite E; exact D | destruct D].
Qed.
Lemma wp_stepR ps s : Inv ps s -> room ps s -> wp (step cf ps) s (postStepR ps s).
Proof.
  destruct ps; intros HI HR; cbn [step];
    lazymatch goal with |- wp (processDocEnd _) _ _ => idtac | _ => try (apply wp_post; [|reflexivity]) end.
  - apply wp_processLtSeen; assumption.
  - apply wp_processStartTag; assumption.
  - apply wp_processEndTag; assumption.
  - apply wp_processAttrName; assumption.
  - apply wp_processAttrVal; assumption.
  - apply wp_processText; assumption.
  - apply wp_processDocStart; assumption.
  - eapply wp_conseq; [apply (wp_processDocEnd cf Hdo Hend B); assumption|]. intros ps' s' ((A & C & D) & R). split; [|exact R]. split; [exact A|]; split; [exact C|].
    destruct ps'; try exact I; [destruct D | reflexivity].
  - apply wp_processPiTag; assumption.
  - apply wp_processPiVal; assumption.
  - apply wp_processDecAttrName; assumption.
  - apply wp_processStartComment; assumption.
  - apply wp_processEndComment; assumption.
  - apply wp_processCdata; assumption.
  - apply wp_processDocType; assumption.
  - eapply wp_conseq; [apply (wp_processPiEnd cf Hdo Hend B); assumption|]. intros ps' s' ((A & C & D & ->) & R). split; [|exact R]. split; [exact A|]; split; [exact C|].
    exact D.
  - destruct HI as [H _]. stepsx.
Qed.
End Main.

Section Loop.
Variable cf : cfg.
Notation doc := (c_doc cf).
Hypothesis Hdo : 0 <= c_docOffset cf.
Hypothesis Hend : 0 <= c_end cf <= zlen doc.
Hypothesis Hend31 : c_end cf < 2^31.
Notation wp := (wp cf).
Notation Inv := (Inv cf).
Lemma some_room ps s : exists B, room cf B ps s.
Proof. exists (b_size (s_vtd s) + 2 + c_docOffset cf - Z.min (s_last s) (s_roff s)). destruct ps; unfold room; lia. Qed.
Lemma wp_step ps s : Inv ps s -> wp (step cf ps) s (postStep cf ps s).
Proof.
  intros HI. destruct (some_room ps s) as (B & R). eapply wp_conseq; [exact (wp_stepR cf Hdo Hend Hend31 B ps s HI R)|]. intros ps' s' (H & _). exact H.
Qed.
Lemma wp_finishUp s (Q : unit -> pst -> Prop) : bufsOk s -> (forall s', bufsOk s' -> Q tt s') -> wp (finishUp cf) s Q.
Proof.
  intros Hb HQ. unfold finishUp. apply wp_bind, wp_get. pose proof Hb as (B0 & B1 & B2 & B3 & B4 & B5).
  repeat (lazymatch goal with |- ParserWp.wp _ (if ?b then _ else _) _ _ => destruct b end).
  all: first [apply wp_ret, HQ, Hb | apply wp_appendTo; [assumption|]; intros b' Hb' _; apply HQ; unfold bufsOk; psimp; tauto].
Qed.
Lemma wp_parseLoop n : forall ps s, Inv ps s -> zlen doc - s_roff s < Z.of_nat n -> wp (parseLoop cf n ps) s (fun _ s' => bufsOk s').
Proof.
  induction n as [|n IH]; intros ps s HI Hn; pose proof HI as [H _]; facts H; [lia|]. cbn [parseLoop]. apply wp_catch.
  pose proof (wp_step ps s HI) as W. unfold ParserWp.wp in W at 1.
  destruct (step cf ps s) as [ps' s'|e s'|w|]; [| |exact W|exact W].
  - destruct W as (HI' & R & _). apply IH; [exact HI' | lia].
  - destruct W as [We Wb]. destruct (as_eof e && isDocEnd ps); [|apply wp_fail; assumption].
    apply wp_catch_wrap. apply wp_finishUp; [exact Wb|]. intros s2 B2. apply wp_ret, B2.
Qed.
End Loop.

(** ** decideEncoding *)
(** The four bytes recognised as the start of a UTF-16 document without mark. *)
Definition sigBE : list byte := [x00; x3c; x00; x3f].
Definition sigLE : list byte := [x3c; x00; x3f; x00].
Definition bytes_at (doc : list byte) (o : Z) (l : list byte) : Prop :=
  forall i, 0 <= i < zlen l -> znth doc (o + i) = znth l i.
(** The buffer ends inside (or before) such a signature. *)
Definition cut_signature (doc : list byte) (o : Z) : Prop :=
  exists p q, q <> [] /\ (p ++ q = sigBE \/ p ++ q = sigLE) /\ bytes_at doc o p /\ zlen doc <= o + zlen p.

Lemma bytes_at_cons doc o b l : znth doc o = Some b -> bytes_at doc (o + 1) l -> bytes_at doc o (b :: l).
Proof.
  intros Hb Hl i Hi. rewrite zlen_cons in Hi. destruct (Z.eq_dec i 0) as [->|].
  - rewrite Z.add_0_r, znth_cons0. exact Hb.
  - rewrite znth_consS by lia. rewrite <- (Hl (i - 1)) by lia. f_equal. lia.
Qed.
Lemma bytes_at_nil doc o : bytes_at doc o [].
Proof. intros i Hi. zlnil. lia. Qed.

Lemma bindE {A B} (m : M A) (k : A -> M B) s :
  bind m k s = match m s with ROk a s' => k a s' | RErr e s' => RErr e s' | RPanic w => RPanic w | RDiverge => RDiverge end.
Proof. reflexivity. Qed.

Section Decide.
Variable cf : cfg.
Notation doc := (c_doc cf).

Lemma matchAt_spec pat : forall o s, 0 <= o ->
  match matchAt cf o (map b2z pat) s with
  | ROk true s' => s' = s /\ bytes_at doc o pat
  | ROk false s' => s' = s /\ ~ bytes_at doc o pat
  | RPanic w => w = PnDocIndex /\ exists p q, q <> [] /\ pat = p ++ q /\ bytes_at doc o p /\ zlen doc <= o + zlen p
  | _ => False
  end.
Proof.
  induction pat as [|b t IH]; intros o s Ho; cbn [map matchAt].
  - split; [reflexivity | apply bytes_at_nil].
  - unfold bind, idx. destruct (znth doc o) as [x|] eqn:Ex.
    + destruct (Z.eqb_spec (b2z x) (b2z b)) as [E|E].
      * apply b2z_inj in E. subst x. specialize (IH (o + 1) s ltac:(lia)).
        destruct (matchAt cf (o + 1) (map b2z t) s) as [[|] s'|e s'|w|]; try contradiction.
        -- destruct IH as [-> IH]. split; [reflexivity | apply bytes_at_cons; assumption].
        -- destruct IH as [-> IH]. split; [reflexivity|]. intros B. apply IH. intros i Hi.
           replace (o + 1 + i) with (o + (i + 1)) by lia. rewrite B by (rewrite zlen_cons; lia). rewrite znth_consS by lia. f_equal. lia.
        -- destruct IH as [-> (p & q & Hq & -> & Hp & Hl)]. split; [reflexivity|]. exists (b :: p), q.
           split; [exact Hq|]. split; [reflexivity|]. split; [apply bytes_at_cons; assumption|]. rewrite zlen_cons. lia.
      * split; [reflexivity|]. intros B. apply E. specialize (B 0). rewrite Z.add_0_r, znth_cons0 in B.
        rewrite Ex in B. pose proof (zlen_nonneg t). specialize (B ltac:(rewrite zlen_cons; lia)). congruence.
    + split; [reflexivity|]. exists [], (b :: t). split; [discriminate|]. split; [reflexivity|].
      split; [apply bytes_at_nil|]. zlnil. apply znth_none_iff in Ex. lia.
Qed.

(** How decideEncoding can end on the state NewVtdParser builds. *)
Lemma decide_at s : 0 <= s_off s -> s_enc s = 0 -> s_inc s = 1 -> s_single s = true ->
  match decideEncoding cf s with
  | ROk _ s' => s_off s + c_docLength cf < 2^31 /\ (c_ns cf = true -> s_enc s' < FormatUtf16BE -> s_off s + c_docLength cf < 2^30) /\
      ((s' = s /\ (exists b, znth doc (s_off s) = Some b /\ b <> x00) /\ ~ bytes_at doc (s_off s) sigLE) \/
       (s' = set_single false (set_inc 2 (set_enc FormatUtf16BE s)) /\ bytes_at doc (s_off s) sigBE) \/
       (s' = set_single false (set_inc 2 (set_enc FormatUtf16LE s)) /\ bytes_at doc (s_off s) sigLE))
  | RErr e s' => exists sc sn, s' = set_inc sn (set_enc sc s) /\
      ((e = EEncoding "not UTF-16BE" /\ s' = s /\ znth doc (s_off s) = Some x00 /\ ~ bytes_at doc (s_off s) sigBE) \/
       (exists m, e = EInternal m None /\ (if c_ns cf then 2^30 else 2^31) <= s_off s + c_docLength cf))
  | RPanic w => w = PnDocIndex /\ cut_signature doc (s_off s)
  | RDiverge => False
  end.
Proof.
  intros Hdo Henc Hinc Hsi. unfold decideEncoding. rewrite bindE. unfold get at 1. cbv beta iota. change (s_off s) with (s_off s).
  rewrite bindE. unfold idx at 1. destruct (znth doc (s_off s)) as [b|] eqn:Eb.
  2:{ split; [reflexivity|]. exists [], sigBE. split; [discriminate|]. split; [left; reflexivity|].
      split; [apply bytes_at_nil|]. zlnil. apply znth_none_iff in Eb. lia. }
  pose proof (b2z_range b) as Rb.
  rewrite (proj2 (Z.eqb_neq (b2z b) (-2))) by lia. rewrite (proj2 (Z.eqb_neq (b2z b) (-1))) by lia.
  rewrite (proj2 (Z.eqb_neq (b2z b) (-17))) by lia.
  destruct (Z.eqb_spec (b2z b) 0) as [E0|E0].
  - assert (b = x00) by (apply b2z_inj; exact E0). subst b.
    rewrite bindE. rewrite bindE.
    pose proof (matchAt_spec [x3c; x00; x3f] (s_off s + 1) s ltac:(lia)) as W.
    change (map b2z [x3c; x00; x3f]) with [60; 0; 63] in W.
    destruct (matchAt cf (s_off s + 1) [60; 0; 63] s) as [[|] s'|e s'|w|]; try contradiction.
    + destruct W as [-> W]. unfold bind, modify, get. cbn [FormatUtf16BE]. psimp.
      change (17 <? 17) with false. change (17 <=? 17) with true. cbn iota.
      destruct (2^31 <=? s_off s + c_docLength cf) eqn:E.
      * exists 17, 2. split; [reflexivity|]. right. eexists. split; [reflexivity|]. destruct (c_ns cf); lia.
      * split; [lia|]. split; [psimp; lia|]. right; left. split; [reflexivity|]. apply bytes_at_cons; assumption.
    + destruct W as [-> W]. unfold fail. exists 0, 1.
      assert (Es : s = set_inc 1 (set_enc 0 s)) by (rewrite <- Henc at 1; rewrite <- Hinc; reflexivity).
      split; [exact Es|]. left. split; [reflexivity|]. split; [reflexivity|]. split; [reflexivity|]. intros B. apply W. intros i Hi.
      replace (s_off s + 1 + i) with (s_off s + (i + 1)) by lia. rewrite B by (unfold sigBE; rewrite !zlen_cons in *; zlnil; lia).
      unfold sigBE. rewrite znth_consS by lia. f_equal. lia.
    + destruct W as [-> (p & q & Hq & E & Hp & Hl)]. split; [reflexivity|]. exists (x00 :: p), q. split; [exact Hq|].
      split; [left; cbn [app]; rewrite <- E; reflexivity|]. split; [apply bytes_at_cons; assumption|]. rewrite zlen_cons. lia.
  - assert (b <> x00) by (intros ->; apply E0; reflexivity).
    assert (PlainEx : ~ bytes_at doc (s_off s) sigLE -> match
     (s0 <- get (fun s0 => s0);;
      (if s_enc s0 <? FormatUtf16BE
       then if c_ns cf then when 2 ^ 30 <=? s_off s0 + c_docLength cf do fail (EInternal "file size too big >= 1GB" None)
          else when 2 ^ 31 <=? s_off s0 + c_docLength cf do fail (EInternal "file size too big >= 2GB" None)
       else when 2 ^ 31 <=? s_off s0 + c_docLength cf do fail (EInternal "file size too big >= 2GB" None));;;
      (when FormatUtf16BE <=? s_enc s0 do modify (set_single false))) s with
  | ROk _ s' => s_off s + c_docLength cf < 2^31 /\ (c_ns cf = true -> s_enc s' < FormatUtf16BE -> s_off s + c_docLength cf < 2^30) /\
      ((s' = s /\ (exists b', Some b = Some b' /\ b' <> x00) /\ ~ bytes_at doc (s_off s) sigLE) \/
       (s' = set_single false (set_inc 2 (set_enc FormatUtf16BE s)) /\ bytes_at doc (s_off s) sigBE) \/
       (s' = set_single false (set_inc 2 (set_enc FormatUtf16LE s)) /\ bytes_at doc (s_off s) sigLE))
  | RErr e s' => exists sc sn, s' = set_inc sn (set_enc sc s) /\
       ((e = EEncoding "not UTF-16BE" /\ s' = s /\ Some b = Some x00 /\ ~ bytes_at doc (s_off s) sigBE) \/
       (exists m, e = EInternal m None /\ (if c_ns cf then 2^30 else 2^31) <= s_off s + c_docLength cf))
  | RPanic w => w = PnDocIndex /\ cut_signature doc (s_off s)
  | RDiverge => False
  end).
    { intros HnLE. unfold bind, get, modify.
      assert (Es : s = set_inc 1 (set_enc 0 s)) by (rewrite <- Henc at 1; rewrite <- Hinc; reflexivity).
      change (s_enc s) with (s_enc s). rewrite Henc. change (0 <? FormatUtf16BE) with true. change (FormatUtf16BE <=? 0) with false. cbn iota.
      destruct (c_ns cf).
      - destruct (2^30 <=? s_off s + c_docLength cf) eqn:E.
        + exists 0, 1. split; [exact Es|]. right. eexists. split; [reflexivity | lia].
        + split; [lia|]. split; [lia|]. left. split; [reflexivity|]. split; [exists b; tauto | exact HnLE].
      - destruct (2^31 <=? s_off s + c_docLength cf) eqn:E.
        + exists 0, 1. split; [exact Es|]. right. eexists. split; [reflexivity | lia].
        + split; [lia|]. split; [discriminate|]. left. split; [reflexivity|]. split; [exists b; tauto | exact HnLE]. }
    destruct (Z.eqb_spec (b2z b) 60) as [E60|E60].
    + assert (b = x3c) by (apply b2z_inj; exact E60). subst b.
      rewrite bindE. rewrite bindE.
      pose proof (matchAt_spec [x00; x3f; x00] (s_off s + 1) s ltac:(lia)) as W.
      change (map b2z [x00; x3f; x00]) with [0; 63; 0] in W.
      destruct (matchAt cf (s_off s + 1) [0; 63; 0] s) as [[|] s'|e s'|w|]; try contradiction.
      * destruct W as [-> W]. clear PlainEx. unfold bind, modify, get. psimp.
        change (FormatUtf16LE <? FormatUtf16BE) with false. change (FormatUtf16BE <=? FormatUtf16LE) with true. cbn iota.
        destruct (2^31 <=? s_off s + c_docLength cf) eqn:E.
        -- exists 18, 2. split; [reflexivity|]. right. eexists. split; [reflexivity|]. destruct (c_ns cf); lia.
        -- split; [lia|]. split; [psimp; unfold FormatUtf16LE, FormatUtf16BE; lia|]. right; right. split; [reflexivity|]. apply bytes_at_cons; assumption.
      * destruct W as [-> W]. apply PlainEx. intros B. apply W. intros i Hi.
        replace (s_off s + 1 + i) with (s_off s + (i + 1)) by lia. rewrite B by (unfold sigLE; rewrite !zlen_cons in *; zlnil; lia).
        unfold sigLE. rewrite znth_consS by lia. f_equal. lia.
      * destruct W as [-> (p & q & Hq & E & Hp & Hl)]. split; [reflexivity|]. exists (x3c :: p), q. split; [exact Hq|].
        split; [right; cbn [app]; rewrite <- E; reflexivity|]. split; [apply bytes_at_cons; assumption|]. rewrite zlen_cons. lia.
    + rewrite bindE. unfold ret at 1. apply PlainEx. intros B. specialize (B 0). rewrite Z.add_0_r, Eb in B.
      change (znth sigLE 0) with (Some x3c) in B. specialize (B ltac:(vm_compute; split; [discriminate|reflexivity])). injection B as ->. apply E60; reflexivity.
Qed.
Lemma decide_spec s : 0 <= c_docOffset cf -> s_off s = c_docOffset cf -> s_enc s = 0 -> s_inc s = 1 -> s_single s = true ->
  match decideEncoding cf s with
  | ROk _ s' => s_off s + c_docLength cf < 2^31 /\ (c_ns cf = true -> s_enc s' < FormatUtf16BE -> s_off s + c_docLength cf < 2^30) /\
      ((s' = s /\ (exists b, znth doc (s_off s) = Some b /\ b <> x00) /\ ~ bytes_at doc (s_off s) sigLE) \/
       (s' = set_single false (set_inc 2 (set_enc FormatUtf16BE s)) /\ bytes_at doc (s_off s) sigBE) \/
       (s' = set_single false (set_inc 2 (set_enc FormatUtf16LE s)) /\ bytes_at doc (s_off s) sigLE))
  | RErr e s' => exists sc sn, s' = set_inc sn (set_enc sc s) /\
      ((e = EEncoding "not UTF-16BE" /\ s' = s /\ znth doc (s_off s) = Some x00 /\ ~ bytes_at doc (s_off s) sigBE) \/
       (exists m, e = EInternal m None /\ (if c_ns cf then 2^30 else 2^31) <= s_off s + c_docLength cf))
  | RPanic w => w = PnDocIndex /\ cut_signature doc (s_off s)
  | RDiverge => False
  end.
Proof. intros H1 H2. apply decide_at. lia. Qed.
End Decide.
