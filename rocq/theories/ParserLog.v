(** Every function of the parser other than those for start tags adds only tokens that
    are not start tags, leaves the location tables alone and keeps the depth; and which
    state follows which. *)
From Verif Require Import Lib XmlChar Buffer BufferProofs Reader ParserState ParserPrim ParserProc ParserMain SpecToken TokenProofs DocBase SpecOutput.

(** The fields of the location cache *)
Definition lcf (s : pst) :=
  (s_rootIndex s, s_lastDepth s, s_l1i s, s_l2i s, s_l3i s, s_l4i s, (s_l1 s, s_l2 s, s_l3 s, s_l4 s, s_l5 s)).
Definition other (w : Z) : Prop := field_type w <> 0.
Definition ext (s s' : pst) : Prop :=
  lcf s' = lcf s /\ forall l, holds (s_vtd s) l -> exists add, holds (s_vtd s') (l ++ add) /\ Forall other add.
Lemma ext_same s s' : lcf s' = lcf s -> s_vtd s' = s_vtd s -> ext s s'.
Proof. intros E V. split; [exact E|]. intros l H. exists []. rewrite app_nil_r, V. auto. Qed.
Lemma ext_trans a b c : ext a b -> ext b c -> ext a c.
Proof.
  intros (E1 & H1) (E2 & H2). split; [congruence|]. intros l H. destruct (H1 l H) as (x & Hx & Fx). destruct (H2 _ Hx) as (y & Hy & Fy).
  exists (x ++ y). rewrite app_assoc. split; [exact Hy | apply Forall_app; auto].
Qed.
(** [fq P m]: as above, and a result of [m] satisfies [P]. *)
Definition fq {A} (P : A -> Prop) (m : M A) : Prop := forall s,
  match m s with ROk a s' => ext s s' /\ s_depth s' = s_depth s /\ P a | RErr _ s' => ext s s' /\ s_depth s' = s_depth s | _ => True end.
Definition anything {A} (a : A) : Prop := True.
Notation fe := (fq anything).
Lemma fq_bind {A B} (P : B -> Prop) (m : M A) (k : A -> M B) : fe m -> (forall a, fq P (k a)) -> fq P (bind m k).
Proof.
  intros H K s. unfold bind. specialize (H s). destruct (m s) as [a s'|e s'|w|]; try exact H. destruct H as (X & D & _).
  specialize (K a s'). destruct (k a s') as [b t|e t|w|]; try exact K; destruct K as (Y & K); (split; [exact (ext_trans _ _ _ X Y)|]); [destruct K as (E & F); split|]; congruence || assumption.
Qed.
Lemma fq_catch {A B} (P : B -> Prop) (m : M A) (h : goerr -> M B) (k : A -> M B) : fe m -> (forall e, fq P (h e)) -> (forall a, fq P (k a)) -> fq P (catch m h k).
Proof.
  intros H E K s. unfold catch. specialize (H s). destruct (m s) as [a s'|e s'|w|]; try exact I.
  - destruct H as (X & D & _). specialize (K a s'). destruct (k a s') as [b t|? t|w|]; try exact K; destruct K as (Y & K); (split; [exact (ext_trans _ _ _ X Y)|]); [destruct K as (F & G); split|]; congruence || assumption.
  - destruct H as (X & D). specialize (E e s'). destruct (h e s') as [b t|? t|w|]; try exact E; destruct E as (Y & E); (split; [exact (ext_trans _ _ _ X Y)|]); [destruct E as (F & G); split|]; congruence || assumption.
Qed.
Lemma same_all s s' : lcf s' = lcf s -> s_vtd s' = s_vtd s -> ext s s'. Proof. apply ext_same. Qed.
Lemma fq_get {A} (f : pst -> A) : fe (get f). Proof. intros s. split; [apply ext_same; reflexivity | split; [reflexivity | exact I]]. Qed.
Lemma fq_ret {A} (P : A -> Prop) (a : A) : P a -> fq P (ret a). Proof. intros H s. split; [apply ext_same; reflexivity | split; [reflexivity | exact H]]. Qed.
Lemma fq_fail {A} (P : A -> Prop) e : fq P (@fail A e). Proof. intros s. split; [apply ext_same|]; reflexivity. Qed.
Lemma fq_panics {A} (P : A -> Prop) w : fq P (@panics A w). Proof. intros s. exact I. Qed.
Lemma fq_diverge {A} (P : A -> Prop) : fq P (@diverge A). Proof. intros s. exact I. Qed.
Lemma fq_lift {A} (o : out A) : fe (lift o).
Proof. intros s. unfold lift. destruct o; [split; [apply ext_same; reflexivity | split; [reflexivity | exact I]] | split; [apply ext_same|]; reflexivity | exact I]. Qed.
Lemma fq_weaken {A} (P Q : A -> Prop) (m : M A) : fq P m -> (forall a, P a -> Q a) -> fq Q m.
Proof. intros H K s. specialize (H s). destruct (m s); try exact H. destruct H as (X & D & F). auto. Qed.
Lemma fq_any {A} (P : A -> Prop) (m : M A) : fq P m -> fe m.
Proof. intros H. apply (fq_weaken P); [exact H | intros; exact I]. Qed.

(** The token word of another type than start tag *)
Lemma shl64_bit x i : 0 <= i < 32 -> Z.testbit (shl64 x 32) (32 + i) = Z.testbit x i.
Proof.
  intros H. unfold shl64. rewrite Z.shiftl_mul_pow2 by lia. replace (wrap64 (x * 2^32)) with (wrap32 x * 2^32) by (unfold wrap64, wrap32; lia).
  rewrite <- Z.shiftl_mul_pow2, Z.shiftl_spec by lia. replace (32 + i - 32) with i by lia.
  replace (wrap32 x) with (x + (- ((x + 2^31) / 2^32)) * 2^32) by (unfold wrap32; lia).
  rewrite <- (Z.mod_pow2_bits_low _ 32 i) by lia. rewrite Z.mod_add by lia. apply Z.mod_pow2_bits_low. lia.
Qed.
Lemma other_token typ o l d : 1 <= typ <= 15 -> other (mkToken typ o l d).
Proof.
  intros H E. assert (B : exists i, 0 <= i < 4 /\ Z.testbit typ i = true).
  { assert (C : typ = 1 \/ typ = 2 \/ typ = 3 \/ typ = 4 \/ typ = 5 \/ typ = 6 \/ typ = 7 \/ typ = 8 \/ typ = 9 \/ typ = 10 \/ typ = 11 \/ typ = 12 \/ typ = 13 \/ typ = 14 \/ typ = 15) by lia.
    repeat (destruct C as [->|C]); try subst typ; first [exists 0; split; [lia|reflexivity] | exists 1; split; [lia|reflexivity] | exists 2; split; [lia|reflexivity] | exists 3; split; [lia|reflexivity]]. }
  destruct B as (i & Hi & Bi). assert (X : Z.testbit (field_type (mkToken typ o l d)) i = true).
  { unfold field_type, unsigned64. rewrite <- Z.shiftr_div_pow2, Z.shiftr_spec, Z.mod_pow2_bits_low by lia.
    unfold mkToken. rewrite Z.lor_spec. replace (i + 60) with (32 + (28 + i)) by lia. rewrite shl64_bit, !Z.lor_spec, Z.shiftl_spec by lia.
    replace (28 + i - 28) with i by lia. rewrite Bi. reflexivity. }
  rewrite E, Z.bits_0 in X. discriminate X.
Qed.

Create HintDb fq.
Ltac typ_ok := repeat match goal with |- context [if ?b then _ else _] => destruct b end; first [assumption | split; vm_compute; discriminate].
Ltac fstep :=
  match goal with
  | |- fq _ (bind _ _) => apply fq_bind; [|intros ?]
  | |- fq _ (catch _ _ _) => apply fq_catch; [|intros ?|intros ?]
  | |- fq _ (get _) => apply fq_get
  | |- fq _ (ret _) => apply fq_ret; solve [exact I | reflexivity | unfold anything; exact I | vm_compute; tauto]
  | |- fq _ (fail _) => apply fq_fail
  | |- fq _ (panics _) => apply fq_panics
  | |- fq _ diverge => apply fq_diverge
  | |- fq _ (lift _) => apply fq_lift
  | |- fq _ (modify _) => intros ?; split; [apply ext_same; reflexivity | split; [reflexivity | exact I]]
  | |- fq _ (if ?b then _ else _) => destruct b
  | |- fq _ (match ?x with _ => _ end) => destruct x
  | |- fq _ (let _ := _ in _) => cbv zeta
  | |- fq _ ((if ?b then _ else _) _ _ _ _) => destruct b
  | |- fq _ (andM _ _) => unfold andM
  | |- fq _ (orM _ _) => unfold orM
  | |- fq _ (notM _) => unfold notM
  | H : _ |- _ => solve [apply H; typ_ok]
  | H : _ |- _ => solve [apply H]
  | |- fq _ _ => solve [eauto 2 with fq]
  end.
Ltac fgo := repeat fstep.
#[export] Hint Extern 1 (_ <= _ <= _) => typ_ok : fq.

Section Log.
Variable cf : cfg.

Lemma fq_append g st v : (forall s b, lcf (st b s) = lcf s /\ s_vtd (st b s) = s_vtd s /\ s_depth (st b s) = s_depth s) -> fe (appendTo g st v).
Proof.
  intros H s. unfold appendTo. destruct (bappend (g s) v) as [b o]. destruct (H s b) as (E1 & E2 & E3).
  destruct o; [split; [apply ext_same; assumption | split; [assumption | exact I]] | split; [apply ext_same; assumption | assumption] | exact I].
Qed.
Lemma fe_ns1 v : fe (appendTo s_ns1 set_ns1 v). Proof. apply fq_append. intros; repeat split. Qed.
Lemma fe_ns2 v : fe (appendTo s_ns2 set_ns2 v). Proof. apply fq_append. intros; repeat split. Qed.
Lemma fe_ns3 v : fe (appendTo s_ns3 set_ns3 v). Proof. apply fq_append. intros; repeat split. Qed.
Hint Resolve fe_ns1 fe_ns2 fe_ns3 : fq.
Ltac fraw := let s := fresh "s" in intros s; cbv beta; repeat match goal with |- context [match ?x with _ => _ end] => lazymatch x with context [match _ with _ => _ end] => fail | _ => destruct x end end;
  first [exact I | split; [apply ext_same; reflexivity | first [reflexivity | split; [reflexivity | exact I]]]].
Lemma fe_writeVtd : forall typ offset len depth, 1 <= typ <= 15 -> fe (writeVtd typ offset len depth).
Proof.
  intros typ o l d H s. unfold writeVtd, appendTo. change (s_vtd s) with (s_vtd s). destruct (bappend (s_vtd s) (mkToken typ o l d)) as [b r] eqn:E.
  assert (X : (exists l0, holds (s_vtd s) l0) -> r = Ok tt) by (intros (l0 & H0); destruct (append_holds _ _ (mkToken typ o l d) H0) as (b' & E' & _); congruence).
  assert (Y : ext s (set_vtd b s)).
  { split; [reflexivity|]. intros l0 H0. destruct (append_holds _ _ (mkToken typ o l d) H0) as (b' & E' & H'). rewrite E in E'. injection E' as -> _.
    exists [mkToken typ o l d]. split; [exact H'|]. constructor; [apply other_token, H | constructor]. }
  destruct r; [split; [exact Y | split; [reflexivity | exact I]] | split; [exact Y | reflexivity] | exact I].
Qed.
Hint Resolve fe_writeVtd : fq.

Lemma fe_idx : forall i, fq anything (idx cf i).
Proof. intros. unfold idx. fraw. Qed.
Hint Resolve fe_idx : fq.
Lemma fe_setOffset : forall o, fq anything (setOffset o).
Proof. intros. unfold setOffset. fraw. Qed.
Hint Resolve fe_setOffset : fq.
Lemma fe_getChar : fq anything (getChar cf ).
Proof. intros. unfold getChar. fraw. Qed.
Hint Resolve fe_getChar : fq.
Lemma fe_skipChar : forall ch, fq anything (skipChar cf ch).
Proof. intros. unfold skipChar. fraw. Qed.
Hint Resolve fe_skipChar : fq.
Lemma fe_skipCharSeq : forall seq, fq anything (skipCharSeq cf seq).
Proof. intros. unfold skipCharSeq. fraw. Qed.
Hint Resolve fe_skipCharSeq : fq.
Lemma fe_skipCharSeqIgnoreCase : forall seq, fq anything (skipCharSeqIgnoreCase cf seq).
Proof. intros seq. induction seq; intros; cbn [skipCharSeqIgnoreCase]; fgo. Qed.
Hint Resolve fe_skipCharSeqIgnoreCase : fq.
Lemma fe_nextChar : fq anything (nextChar cf ).
Proof. intros. unfold nextChar. fgo. Qed.
Hint Resolve fe_nextChar : fq.
Lemma fe_nextCharAfterWsLoop : forall n, fq anything (nextCharAfterWsLoop cf n).
Proof. intros n. induction n; intros; cbn [nextCharAfterWsLoop]; fgo. Qed.
Hint Resolve fe_nextCharAfterWsLoop : fq.
Lemma fe_nextCharAfterWs : fq anything (nextCharAfterWs cf ).
Proof. intros. unfold nextCharAfterWs. fgo. Qed.
Hint Resolve fe_nextCharAfterWs : fq.
Lemma fe_writeVtdTextLoop : forall n typ rOffset j depth, 1 <= typ <= 15 -> fq anything (writeVtdTextLoop n typ rOffset j depth).
Proof. intros n. induction n; intros; cbn [writeVtdTextLoop]; fgo. Qed.
Hint Resolve fe_writeVtdTextLoop : fq.
Lemma fe_writeVtdText : forall typ offset len depth, 1 <= typ <= 15 -> fq anything (writeVtdText typ offset len depth).
Proof. intros. unfold writeVtdText. fgo. Qed.
Hint Resolve fe_writeVtdText : fq.
Lemma fe_fmtCustomLine : forall offset, fq anything (fmtCustomLine cf offset).
Proof. intros. unfold fmtCustomLine. fraw. Qed.
Hint Resolve fe_fmtCustomLine : fq.
Lemma fe_fmtLine : fq anything (fmtLine cf ).
Proof. intros. unfold fmtLine. fgo. Qed.
Hint Resolve fe_fmtLine : fq.
Lemma fe_parseErr : forall A P msg, fq P (@parseErr cf A msg).
Proof. intros. unfold parseErr. fgo. Qed.
Hint Resolve fe_parseErr : fq.
Lemma fe_parseErrAt : forall A P msg offset, fq P (@parseErrAt cf A msg offset).
Proof. intros. unfold parseErrAt. fgo. Qed.
Hint Resolve fe_parseErrAt : fq.
Lemma fe_writeVtdWithLengthCheck : forall typ errMsg, 1 <= typ <= 15 -> fq anything (writeVtdWithLengthCheck cf typ errMsg).
Proof. intros. unfold writeVtdWithLengthCheck. fgo. Qed.
Hint Resolve fe_writeVtdWithLengthCheck : fq.
Lemma fe_prevUtf8 : forall n o, fq anything (prevUtf8 cf n o).
Proof. intros n. induction n; intros; cbn [prevUtf8]; fgo. Qed.
Hint Resolve fe_prevUtf8 : fq.
Lemma fe_getPrevOffset : fq anything (getPrevOffset cf ).
Proof. intros. unfold getPrevOffset. fgo. Qed.
Hint Resolve fe_getPrevOffset : fq.
Lemma fe_matchAt : forall o pat, fq anything (matchAt cf o pat).
Proof. intros o pat. revert o. induction pat; intros; cbn [matchAt]; fgo. Qed.
Hint Resolve fe_matchAt : fq.
Lemma fe_decideEncoding : fq anything (decideEncoding cf ).
Proof. intros. unfold decideEncoding. fgo. Qed.
Hint Resolve fe_decideEncoding : fq.
Lemma fe_checkXmlPrefix : forall offset len checkLength, fq anything (checkXmlPrefix cf offset len checkLength).
Proof. intros. unfold checkXmlPrefix. fgo. Qed.
Hint Resolve fe_checkXmlPrefix : fq.
Lemma fe_checkXmlnsPrefix : forall offset len checkLength, fq anything (checkXmlnsPrefix cf offset len checkLength).
Proof. intros. unfold checkXmlnsPrefix. fgo. Qed.
Hint Resolve fe_checkXmlnsPrefix : fq.
Lemma fe_matchBytes : forall n a b j, fq anything (matchBytes cf n a b j).
Proof. intros n. induction n; intros; cbn [matchBytes]; fgo. Qed.
Hint Resolve fe_matchBytes : fq.
Lemma fe_qualifyElementLoop : forall n i preLen preOs, fq anything (qualifyElementLoop cf n i preLen preOs).
Proof. intros n. induction n; intros; cbn [qualifyElementLoop]; fgo. Qed.
Hint Resolve fe_qualifyElementLoop : fq.
Lemma fe_qualifyElement : fq anything (qualifyElement cf ).
Proof. intros. unfold qualifyElement. fgo. Qed.
Hint Resolve fe_qualifyElement : fq.
Lemma fe_recordWhiteSpace : fq anything (recordWhiteSpace ).
Proof. intros. unfold recordWhiteSpace. fgo. Qed.
Hint Resolve fe_recordWhiteSpace : fq.
Lemma fe_entSeq : forall seq, fq anything (entSeq cf seq).
Proof. intros seq. induction seq; intros; cbn [entSeq]; fgo. Qed.
Hint Resolve fe_entSeq : fq.
Lemma fe_entHex : forall n value, fq anything (entHex cf n value).
Proof. intros n. induction n; intros; cbn [entHex]; fgo. Qed.
Hint Resolve fe_entHex : fq.
Lemma fe_entDec : forall n c value, fq anything (entDec cf n c value).
Proof. intros n. induction n; intros; cbn [entDec]; fgo. Qed.
Hint Resolve fe_entDec : fq.
Lemma fe_entityIdentifier : fq anything (entityIdentifier cf ).
Proof. intros. unfold entityIdentifier. fgo. Qed.
Hint Resolve fe_entityIdentifier : fq.
Lemma fe_skipRbrLoop : forall n, fq anything (skipRbrLoop cf n).
Proof. intros n. induction n; intros; cbn [skipRbrLoop]; fgo. Qed.
Hint Resolve fe_skipRbrLoop : fq.
Lemma fe_skipRbr : fq anything (skipRbr cf ).
Proof. intros. unfold skipRbr. fgo. Qed.
Hint Resolve fe_skipRbr : fq.
Lemma fe_handleOtherTextChar : forall c, fq anything (handleOtherTextChar cf c).
Proof. intros. unfold handleOtherTextChar. fgo. Qed.
Hint Resolve fe_handleOtherTextChar : fq.
Lemma fe_validateSeqLoop : forall name seq, fq anything (validateSeqLoop cf name seq).
Proof. intros name seq. revert name. induction seq; intros; cbn [validateSeqLoop]; fgo. Qed.
Hint Resolve fe_validateSeqLoop : fq.
Lemma fe_validateSeq : forall name, fq anything (validateSeq cf name).
Proof. intros. unfold validateSeq. fgo. Qed.
Hint Resolve fe_validateSeq : fq.
Lemma fe_getNextProcessStateFromChar : forall c, fq (fun ps => In ps [StLtSeen; StText]) (getNextProcessStateFromChar cf c).
Proof. intros. unfold getNextProcessStateFromChar. fgo. Qed.
Hint Resolve fe_getNextProcessStateFromChar : fq.
Lemma next_any (P : pstate -> Prop) c : (forall ps, In ps [StLtSeen; StText] -> P ps) -> fq P (getNextProcessStateFromChar cf c).
Proof. apply fq_weaken, fe_getNextProcessStateFromChar. Qed.
Hint Extern 2 (fq _ (getNextProcessStateFromChar _ _)) => (apply next_any; intros ? HX; unfold follows, followers; cbn [In] in HX |- *; tauto) : fq.
Lemma fe_writeTextHere : forall typ, 1 <= typ <= 15 -> fq anything (writeTextHere typ).
Proof. intros. unfold writeTextHere. fgo. Qed.
Hint Resolve fe_writeTextHere : fq.
Lemma fe_writeEmptyPiVal : fq anything (writeEmptyPiVal ).
Proof. intros. unfold writeEmptyPiVal. fgo. Qed.
Hint Resolve fe_writeEmptyPiVal : fq.
Lemma fe_markLast : fq anything (markLast ).
Proof. intros. unfold markLast. fgo. Qed.
Hint Resolve fe_markLast : fq.
Lemma fe_processElementTail : fq (fun ps => In ps [StDocEnd; StTagEnd; StLtSeen; StText]) (processElementTail cf ).
Proof. intros. unfold processElementTail. fgo. Qed.
Hint Resolve fe_processElementTail : fq.
Lemma fe_startTagNameLoop : forall n, fq anything (startTagNameLoop cf n).
Proof. intros n. induction n; intros; cbn [startTagNameLoop]; fgo. Qed.
Hint Resolve fe_startTagNameLoop : fq.
Lemma fe_setTag : forall i v, fq anything (setTag i v).
Proof. intros. unfold setTag. fraw. Qed.
Hint Resolve fe_setTag : fq.
Lemma fe_startTagNs : fq anything (startTagNs cf ).
Proof. intros. unfold startTagNs. fgo. Qed.
Hint Resolve fe_startTagNs : fq.
Lemma fe_appendNs1 : fq anything (appendNs1 ).
Proof. intros. unfold appendNs1. fgo. Qed.
Hint Resolve fe_appendNs1 : fq.
Lemma fe_endTagCompare : forall n a b, fq anything (endTagCompare cf n a b).
Proof. intros n. induction n; intros; cbn [endTagCompare]; fgo. Qed.
Hint Resolve fe_endTagCompare : fq.
Lemma fe_processExSeen : fq (follows StLtSeen) (processExSeen cf ).
Proof. intros. unfold processExSeen. fgo. Qed.
Hint Resolve fe_processExSeen : fq.
Lemma fe_isXmlTarget : forall c, fq anything (isXmlTarget cf c).
Proof. intros. unfold isXmlTarget. fgo. Qed.
Hint Resolve fe_isXmlTarget : fq.
Lemma fe_processQmSeen : fq (follows StLtSeen) (processQmSeen cf ).
Proof. intros. unfold processQmSeen. fgo. Qed.
Hint Resolve fe_processQmSeen : fq.
Lemma fe_textLoop : forall n, fq anything (textLoop cf n).
Proof. intros n. induction n; intros; cbn [textLoop]; fgo. Qed.
Hint Resolve fe_textLoop : fq.
Lemma fe_processText : fq (follows StText) (processText cf ).
Proof. intros. unfold processText. fgo. Qed.
Hint Resolve fe_processText : fq.
Lemma fe_cdataLoop : forall n, fq anything (cdataLoop cf n).
Proof. intros n. induction n; intros; cbn [cdataLoop]; fgo. Qed.
Hint Resolve fe_cdataLoop : fq.
Lemma fe_processCdata : fq (follows StCdata) (processCdata cf ).
Proof. intros. unfold processCdata. fgo. Qed.
Hint Resolve fe_processCdata : fq.
Lemma fe_commentLoop : forall n, fq anything (commentLoop cf n).
Proof. intros n. induction n; intros; cbn [commentLoop]; fgo. Qed.
Hint Resolve fe_commentLoop : fq.
Lemma fe_processStartComment : fq (follows StStartComment) (processStartComment cf ).
Proof. intros. unfold processStartComment. fgo. Qed.
Hint Resolve fe_processStartComment : fq.
Lemma fe_processEndComment : fq (follows StEndComment) (processEndComment cf ).
Proof. intros. unfold processEndComment. fgo. Qed.
Hint Resolve fe_processEndComment : fq.
Lemma fe_processDocEnd : fq (follows StDocEnd) (processDocEnd cf ).
Proof. intros. unfold processDocEnd. fgo. Qed.
Hint Resolve fe_processDocEnd : fq.
Lemma fe_skipXmlDecl : fq anything (skipXmlDecl cf ).
Proof. intros. unfold skipXmlDecl. fgo. Qed.
Hint Resolve fe_skipXmlDecl : fq.
Lemma fe_skipOneSpace : fq anything (skipOneSpace cf ).
Proof. intros. unfold skipOneSpace. fgo. Qed.
Hint Resolve fe_skipOneSpace : fq.
Lemma fe_processDocStart : fq (follows StDocStart) (processDocStart cf ).
Proof. intros. unfold processDocStart. fgo. Qed.
Hint Resolve fe_processDocStart : fq.
Lemma fe_docTypeLoop : forall n z, fq anything (docTypeLoop cf n z).
Proof. intros n. induction n; intros; cbn [docTypeLoop]; fgo. Qed.
Hint Resolve fe_docTypeLoop : fq.
Lemma fe_processDocType : fq (follows StDocType) (processDocType cf ).
Proof. intros. unfold processDocType. fgo. Qed.
Hint Resolve fe_processDocType : fq.
Lemma fe_piNameLoop : forall n, fq anything (piNameLoop cf n).
Proof. intros n. induction n; intros; cbn [piNameLoop]; fgo. Qed.
Hint Resolve fe_piNameLoop : fq.
Lemma fe_processPiTag : fq (follows StPiTag) (processPiTag cf ).
Proof. intros. unfold processPiTag. fgo. Qed.
Hint Resolve fe_processPiTag : fq.
Lemma fe_piValLoop : forall n, fq anything (piValLoop cf n).
Proof. intros n. induction n; intros; cbn [piValLoop]; fgo. Qed.
Hint Resolve fe_piValLoop : fq.
Lemma fe_processPiVal : fq (follows StPiVal) (processPiVal cf ).
Proof. intros. unfold processPiVal. fgo. Qed.
Hint Resolve fe_processPiVal : fq.
Lemma fe_piEndNameLoop : forall n, fq anything (piEndNameLoop cf n).
Proof. intros n. induction n; intros; cbn [piEndNameLoop]; fgo. Qed.
Hint Resolve fe_piEndNameLoop : fq.
Lemma fe_piEndValLoop : forall n, fq anything (piEndValLoop cf n).
Proof. intros n. induction n; intros; cbn [piEndValLoop]; fgo. Qed.
Hint Resolve fe_piEndValLoop : fq.
Lemma fe_processPiEnd : fq (follows StPiEnd) (processPiEnd cf ).
Proof. intros. unfold processPiEnd. fgo. Qed.
Hint Resolve fe_processPiEnd : fq.
Lemma fe_attrNameLoop : forall n, fq anything (attrNameLoop cf n).
Proof. intros n. induction n; intros; cbn [attrNameLoop]; fgo. Qed.
Hint Resolve fe_attrNameLoop : fq.
Lemma fe_attrUniqueLoop : forall n i, fq anything (attrUniqueLoop cf n i).
Proof. intros n. induction n; intros; cbn [attrUniqueLoop]; fgo. Qed.
Hint Resolve fe_attrUniqueLoop : fq.
Lemma fe_storeAttrName : fq anything (storeAttrName ).
Proof. intros. unfold storeAttrName. fraw. Qed.
Hint Resolve fe_storeAttrName : fq.
Lemma fe_storePrefName : fq anything (storePrefName ).
Proof. intros. unfold storePrefName. fraw. Qed.
Hint Resolve fe_storePrefName : fq.
Lemma fe_checkAttrUniqueness : fq anything (checkAttrUniqueness cf ).
Proof. intros. unfold checkAttrUniqueness. fgo. Qed.
Hint Resolve fe_checkAttrUniqueness : fq.
Lemma fe_attrNameXmlns : fq anything (attrNameXmlns cf ).
Proof. intros. unfold attrNameXmlns. fgo. Qed.
Hint Resolve fe_attrNameXmlns : fq.
Lemma fe_attrNameNsChecks : fq anything (attrNameNsChecks cf ).
Proof. intros. unfold attrNameNsChecks. fgo. Qed.
Hint Resolve fe_attrNameNsChecks : fq.
Lemma fe_writeAttrName : fq anything (writeAttrName cf ).
Proof. intros. unfold writeAttrName. fgo. Qed.
Hint Resolve fe_writeAttrName : fq.
Lemma fe_processAttrName : fq (follows StAttrName) (processAttrName cf ).
Proof. intros. unfold processAttrName. fgo. Qed.
Hint Resolve fe_processAttrName : fq.
Lemma fe_getCharUnit : forall offset, fq anything (getCharUnit cf offset).
Proof. intros. unfold getCharUnit. fgo. Qed.
Hint Resolve fe_getCharUnit : fq.
Lemma fe_resolvedSeq : forall seq offset inc, fq anything (resolvedSeq cf seq offset inc).
Proof. intros seq. induction seq; intros; cbn [resolvedSeq]; fgo. Qed.
Hint Resolve fe_resolvedSeq : fq.
Lemma fe_resolvedHex : forall n offset inc val, fq anything (resolvedHex cf n offset inc val).
Proof. intros n. induction n; intros; cbn [resolvedHex]; fgo. Qed.
Hint Resolve fe_resolvedHex : fq.
Lemma fe_resolvedDec : forall n offset inc val, fq anything (resolvedDec cf n offset inc val).
Proof. intros n. induction n; intros; cbn [resolvedDec]; fgo. Qed.
Hint Resolve fe_resolvedDec : fq.
Lemma fe_getCharResolved : forall offset, fq anything (getCharResolved cf offset).
Proof. intros. unfold getCharResolved. fgo. Qed.
Hint Resolve fe_getCharResolved : fq.
Lemma fe_nsUrlLoop : forall pat offset g, fq anything (nsUrlLoop cf pat offset g).
Proof. intros pat. induction pat; intros; cbn [nsUrlLoop]; fgo. Qed.
Hint Resolve fe_nsUrlLoop : fq.
Lemma fe_identifyNsUrl : fq anything (identifyNsUrl cf ).
Proof. intros. unfold identifyNsUrl. fgo. Qed.
Hint Resolve fe_identifyNsUrl : fq.
Lemma fe_qualifyAttrLoop : forall n i preLen preOs, fq anything (qualifyAttrLoop cf n i preLen preOs).
Proof. intros n. induction n; intros; cbn [qualifyAttrLoop]; fgo. Qed.
Hint Resolve fe_qualifyAttrLoop : fq.
Lemma fe_prefNameAt : forall j, fq anything (prefNameAt j).
Proof. intros. unfold prefNameAt. fraw. Qed.
Hint Resolve fe_prefNameAt : fq.
Lemma fe_prefUrlAt : forall j, fq anything (prefUrlAt j).
Proof. intros. unfold prefUrlAt. fraw. Qed.
Hint Resolve fe_prefUrlAt : fq.
Lemma fe_qualifyAttrsLoop : forall n j, fq anything (qualifyAttrsLoop cf n j).
Proof. intros n. induction n; intros; cbn [qualifyAttrsLoop]; fgo. Qed.
Hint Resolve fe_qualifyAttrsLoop : fq.
Lemma fe_qualifyAttributes : fq anything (qualifyAttributes cf ).
Proof. intros. unfold qualifyAttributes. fgo. Qed.
Hint Resolve fe_qualifyAttributes : fq.
Lemma fe_matchUrlLoop : forall n ao al bo bl, fq anything (matchUrlLoop cf n ao al bo bl).
Proof. intros n. induction n; intros; cbn [matchUrlLoop]; fgo. Qed.
Hint Resolve fe_matchUrlLoop : fq.
Lemma fe_matchUrl : forall ao al bo bl, fq anything (matchUrl cf ao al bo bl).
Proof. intros. unfold matchUrl. fgo. Qed.
Hint Resolve fe_matchUrl : fq.
Lemma fe_urlOf : forall i, fq anything (urlOf i).
Proof. intros. unfold urlOf. fgo. Qed.
Hint Resolve fe_urlOf : fq.
Lemma fe_qualUniqueInner : forall n j offset postLen urlA, fq anything (qualUniqueInner cf n j offset postLen urlA).
Proof. intros n. induction n; intros; cbn [qualUniqueInner]; fgo. Qed.
Hint Resolve fe_qualUniqueInner : fq.
Lemma fe_qualUniqueOuter : forall n i total, fq anything (qualUniqueOuter cf n i total).
Proof. intros n. induction n; intros; cbn [qualUniqueOuter]; fgo. Qed.
Hint Resolve fe_qualUniqueOuter : fq.
Lemma fe_checkQualifiedAttributeUniqueness : fq anything (checkQualifiedAttributeUniqueness cf ).
Proof. intros. unfold checkQualifiedAttributeUniqueness. fgo. Qed.
Hint Resolve fe_checkQualifiedAttributeUniqueness : fq.
Lemma fe_attrValLoop : forall n q, fq anything (attrValLoop cf n q).
Proof. intros n. induction n; intros; cbn [attrValLoop]; fgo. Qed.
Hint Resolve fe_attrValLoop : fq.
Lemma fe_attrValNs : fq anything (attrValNs cf ).
Proof. intros. unfold attrValNs. fgo. Qed.
Hint Resolve fe_attrValNs : fq.
Lemma fe_writeDec : forall typ len, 1 <= typ <= 15 -> fq anything (writeDec typ len).
Proof. intros. unfold writeDec. fgo. Qed.
Hint Resolve fe_writeDec : fq.
Lemma fe_skipEitherCase : forall l, fq anything (skipEitherCase cf l).
Proof. intros. unfold skipEitherCase. fgo. Qed.
Hint Resolve fe_skipEitherCase : fq.
Lemma fe_cannotSwitch : fq anything (cannotSwitch ).
Proof. intros. unfold cannotSwitch. fgo. Qed.
Hint Resolve fe_cannotSwitch : fq.
Lemma fe_switchToAscii : fq anything (switchToAscii cf ).
Proof. intros. unfold switchToAscii. fgo. Qed.
Hint Resolve fe_switchToAscii : fq.
Lemma fe_checkAsciiEncoding : fq anything (checkAsciiEncoding cf ).
Proof. intros. unfold checkAsciiEncoding. fgo. Qed.
Hint Resolve fe_checkAsciiEncoding : fq.
Lemma fe_checkUsAsciiEncoding : fq anything (checkUsAsciiEncoding cf ).
Proof. intros. unfold checkUsAsciiEncoding. fgo. Qed.
Hint Resolve fe_checkUsAsciiEncoding : fq.
Lemma fe_checkIsoEncoding : fq anything (checkIsoEncoding cf ).
Proof. intros. unfold checkIsoEncoding. fgo. Qed.
Hint Resolve fe_checkIsoEncoding : fq.
Lemma fe_checkUtfEncoding : fq anything (checkUtfEncoding cf ).
Proof. intros. unfold checkUtfEncoding. fgo. Qed.
Hint Resolve fe_checkUtfEncoding : fq.
Lemma fe_checkWinEncoding : forall rest len msg, fq anything (checkWinEncoding cf rest len msg).
Proof. intros. unfold checkWinEncoding. fgo. Qed.
Hint Resolve fe_checkWinEncoding : fq.
Lemma fe_checkCpEncoding : fq anything (checkCpEncoding cf ).
Proof. intros. unfold checkCpEncoding. fgo. Qed.
Hint Resolve fe_checkCpEncoding : fq.
Lemma fe_checkWindowsEncoding : fq anything (checkWindowsEncoding cf ).
Proof. intros. unfold checkWindowsEncoding. fgo. Qed.
Hint Resolve fe_checkWindowsEncoding : fq.
Lemma fe_processDecEncodingAttr : fq anything (processDecEncodingAttr cf ).
Proof. intros. unfold processDecEncodingAttr. fgo. Qed.
Hint Resolve fe_processDecEncodingAttr : fq.
Lemma fe_processDecStandaloneAttr : fq anything (processDecStandaloneAttr cf ).
Proof. intros. unfold processDecStandaloneAttr. fgo. Qed.
Hint Resolve fe_processDecStandaloneAttr : fq.
Lemma fe_decVersionName : fq anything (decVersionName cf ).
Proof. intros. unfold decVersionName. fgo. Qed.
Hint Resolve fe_decVersionName : fq.
Lemma fe_decEnd : fq (follows StDecAttrName) (decEnd cf ).
Proof. intros. unfold decEnd. fgo. Qed.
Hint Resolve fe_decEnd : fq.
Lemma fe_processDecAttrName : fq (follows StDecAttrName) (processDecAttrName cf ).
Proof. intros. unfold processDecAttrName. fgo. Qed.
Hint Resolve fe_processDecAttrName : fq.
End Log.
