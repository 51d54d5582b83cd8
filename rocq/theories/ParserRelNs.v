(** The namespace bookkeeping in two related runs of the same namespace mode. *)
From Verif Require Import Lib XmlChar Buffer BufferProofs Reader ParserState ParserPrim ParserProc ParserMain ParserWp ParserRel ParserRelMain.

(** A relation between states that agree on everything but the location caches. *)
Record frameL (R : pst -> pst -> Prop) : Prop := mkFrameL {
  fl_frame : frame R;
  fl_graft : forall s1 s2, R s1 s2 -> s1 = graftL s2 s1;
  fl_prefCount : forall v s1 s2, R s1 s2 -> R (set_prefCount v s1) (set_prefCount v s2);
  fl_prefUrls : forall v s1 s2, R s1 s2 -> R (set_prefUrls v s1) (set_prefUrls v s2);
  fl_rec : forall v s1 s2, R s1 s2 -> R (set_rec v s1) (set_rec v s2);
  fl_ns1 : forall v s1 s2, R s1 s2 -> R (set_ns1 v s1) (set_ns1 v s2);
  fl_ns2 : forall v s1 s2, R s1 s2 -> R (set_ns2 v s1) (set_ns2 v s2);
  fl_ns3 : forall v s1 s2, R s1 s2 -> R (set_ns3 v s1) (set_ns3 v s2);
  fl_prefNames : forall v s1 s2, R s1 s2 -> R (set_prefNames v s1) (set_prefNames v s2) }.

Lemma sim_getL R esc {A B} (f1 f2 : pst -> A) (k1 k2 : A -> M B) : frameL R ->
  (forall s t, R (graftL s t) s -> sim R esc (k1 (f1 (graftL s t))) (k2 (f2 s))) -> sim R esc (bind (get f1) k1) (bind (get f2) k2).
Proof.
  intros HR K s1 s2 H. pose proof (fl_graft _ HR _ _ H) as E. rewrite E. rewrite E in H.
  change (bind (get f1) k1 (graftL s2 s1)) with (k1 (f1 (graftL s2 s1)) (graftL s2 s1)).
  change (bind (get f2) k2 s2) with (k2 (f2 s2) s2). apply K; exact H.
Qed.

Section Ns.
Variables cf1 cf2 : cfg.
Variable R : pst -> pst -> Prop.
Variable esc : way.
Variable mono : bool.
Hypothesis HL : frameL R.
Hypothesis HB : leaves esc.
Hypothesis HP : prims cf1 cf2 R esc mono.
Hypothesis HN : c_ns cf1 = c_ns cf2.
Hypothesis HG : forall s1 s2 o, R s1 s2 -> sim R esc (lift (rdGetLongCharAt (rdr cf1 s1) o)) (lift (rdGetLongCharAt (rdr cf2 s2) o)).
Hypothesis HA : forall s1 s2 o, R s1 s2 -> sim R esc (lift (rdGetCharAt (rdr cf1 s1) o)) (lift (rdGetCharAt (rdr cf2 s2) o)).

Let HR : frame R := fl_frame _ HL.
Ltac setL := intros; first [ rel_setter HR
  | eapply (fl_prefCount _ HL); eassumption
  | eapply (fl_prefUrls _ HL); eassumption
  | eapply (fl_rec _ HL); eassumption
  | eapply (fl_ns1 _ HL); eassumption
  | eapply (fl_ns2 _ HL); eassumption
  | eapply (fl_ns3 _ HL); eassumption
  | eapply (fl_prefNames _ HL); eassumption ].
Ltac relL1 :=
  lazymatch goal with
  | |- sim _ _ (bind (get _) _) (bind (get _) _) => apply (sim_getL _ _ _ _ _ _ HL); intros ? ? ?; cbv beta
  | |- sim _ _ (bind _ _) (bind _ _) => apply (sim_bind _ _ HB); [|intros ?; cbv beta]
  | |- sim _ _ (modify _) (modify _) => apply sim_modify; solve [setL]
  | |- sim _ _ (lift (rdGetLongCharAt _ _)) _ => apply HG; assumption
  | |- sim _ _ (lift (rdGetCharAt _ _)) _ => apply HA; assumption
  | |- sim _ _ (match ?x with Panic _ => _ | _ => _ end) (match ?y with Panic _ => _ | _ => _ end) => change x with y; destruct y
  | |- sim _ _ (match ?x with Ns2000 => _ | _ => _ end) (match ?y with Ns2000 => _ | _ => _ end) => change x with y; destruct y
  | |- _ => rel1 HR HB
  end.
Ltac rel := repeat first [ solve [auto 1 with sim nocore] | relL1 ].
Ltac loop_intro := let n1 := fresh "n" in let n2 := fresh "n" in let IH := fresh "IH" in intro n1; induction n1 as [|n1 IH]; intros [|n2]; intros; [apply sim_diverge | exfalso; unfold fle in *; destruct mono; lia | eapply sim_div0; eassumption |
  match goal with H : fle mono (S _) (S _) |- _ => eapply fle_S in H; [|eassumption..] end].
Local Hint Extern 0 (sim _ _ (setOffset _) _) => eapply sim_setOffset; rel_side : sim.
Local Hint Extern 0 (sim _ _ (skipCharSeqIgnoreCase _ _) _) => eapply sim_skipCharSeqIgnoreCase; rel_side : sim.
Local Hint Extern 0 (sim _ _ (nextChar _) _) => eapply sim_nextChar; rel_side : sim.
Local Hint Extern 0 (sim _ _ (nextCharAfterWsLoop _ _) _) => eapply sim_nextCharAfterWsLoop; rel_side : sim.
Local Hint Extern 0 (sim _ _ (nextCharAfterWs _) _) => eapply sim_nextCharAfterWs; rel_side : sim.
Local Hint Extern 0 (sim _ _ (writeVtd _ _ _ _) _) => eapply sim_writeVtd; rel_side : sim.
Local Hint Extern 0 (sim _ _ (writeVtdTextLoop _ _ _ _ _) _) => eapply sim_writeVtdTextLoop; rel_side : sim.
Local Hint Extern 0 (sim _ _ (writeVtdText _ _ _ _) _) => eapply sim_writeVtdText; rel_side : sim.
Local Hint Extern 0 (sim _ _ (writeVtdWithLengthCheck _ _ _) _) => eapply sim_writeVtdWithLengthCheck; rel_side : sim.
Local Hint Extern 0 (sim _ _ (prevUtf8 _ _ _) _) => eapply sim_prevUtf8; rel_side : sim.
Local Hint Extern 0 (sim _ _ (getPrevOffset _) _) => eapply sim_getPrevOffset; rel_side : sim.
Local Hint Extern 0 (sim _ _ (matchAt _ _ _) _) => eapply sim_matchAt; rel_side : sim.
Local Hint Extern 0 (sim _ _ (checkXmlPrefix _ _ _ _) _) => eapply sim_checkXmlPrefix; rel_side : sim.
Local Hint Extern 0 (sim _ _ (checkXmlnsPrefix _ _ _ _) _) => eapply sim_checkXmlnsPrefix; rel_side : sim.
Local Hint Extern 0 (sim _ _ (matchBytes _ _ _ _ _) _) => eapply sim_matchBytes; rel_side : sim.
Local Hint Extern 0 (sim _ _ (recordWhiteSpace) _) => eapply sim_recordWhiteSpace; rel_side : sim.
Local Hint Extern 0 (sim _ _ (entSeq _ _) _) => eapply sim_entSeq; rel_side : sim.
Local Hint Extern 0 (sim _ _ (entHex _ _ _) _) => eapply sim_entHex; rel_side : sim.
Local Hint Extern 0 (sim _ _ (entDec _ _ _ _) _) => eapply sim_entDec; rel_side : sim.
Local Hint Extern 0 (sim _ _ (entityIdentifier _) _) => eapply sim_entityIdentifier; rel_side : sim.
Local Hint Extern 0 (sim _ _ (skipRbrLoop _ _) _) => eapply sim_skipRbrLoop; rel_side : sim.
Local Hint Extern 0 (sim _ _ (skipRbr _) _) => eapply sim_skipRbr; rel_side : sim.
Local Hint Extern 0 (sim _ _ (handleOtherTextChar _ _) _) => eapply sim_handleOtherTextChar; rel_side : sim.
Local Hint Extern 0 (sim _ _ (validateSeqLoop _ _ _) _) => eapply sim_validateSeqLoop; rel_side : sim.
Local Hint Extern 0 (sim _ _ (validateSeq _ _) _) => eapply sim_validateSeq; rel_side : sim.
Local Hint Extern 0 (sim _ _ (getNextProcessStateFromChar _ _) _) => eapply sim_getNextProcessStateFromChar; rel_side : sim.
Local Hint Extern 0 (sim _ _ (writeTextHere _) _) => eapply sim_writeTextHere; rel_side : sim.
Local Hint Extern 0 (sim _ _ (writeEmptyPiVal) _) => eapply sim_writeEmptyPiVal; rel_side : sim.
Local Hint Extern 0 (sim _ _ (markLast) _) => eapply sim_markLast; rel_side : sim.
Local Hint Extern 0 (sim _ _ (processElementTail _) _) => eapply sim_processElementTail; rel_side : sim.
Local Hint Extern 0 (sim _ _ (setTag _ _) _) => eapply sim_setTag; rel_side : sim.
Local Hint Extern 0 (sim _ _ (endTagCompare _ _ _ _) _) => eapply sim_endTagCompare; rel_side : sim.
Local Hint Extern 0 (sim _ _ (processEndTag _) _) => eapply sim_processEndTag; rel_side : sim.
Local Hint Extern 0 (sim _ _ (isXmlTarget _ _) _) => eapply sim_isXmlTarget; rel_side : sim.
Local Hint Extern 0 (sim _ _ (textLoop _ _) _) => eapply sim_textLoop; rel_side : sim.
Local Hint Extern 0 (sim _ _ (processText _) _) => eapply sim_processText; rel_side : sim.
Local Hint Extern 0 (sim _ _ (cdataLoop _ _) _) => eapply sim_cdataLoop; rel_side : sim.
Local Hint Extern 0 (sim _ _ (processCdata _) _) => eapply sim_processCdata; rel_side : sim.
Local Hint Extern 0 (sim _ _ (commentLoop _ _) _) => eapply sim_commentLoop; rel_side : sim.
Local Hint Extern 0 (sim _ _ (processStartComment _) _) => eapply sim_processStartComment; rel_side : sim.
Local Hint Extern 0 (sim _ _ (processEndComment _) _) => eapply sim_processEndComment; rel_side : sim.
Local Hint Extern 0 (sim _ _ (processDocEnd _) _) => eapply sim_processDocEnd; rel_side : sim.
Local Hint Extern 0 (sim _ _ (skipXmlDecl _) _) => eapply sim_skipXmlDecl; rel_side : sim.
Local Hint Extern 0 (sim _ _ (skipOneSpace _) _) => eapply sim_skipOneSpace; rel_side : sim.
Local Hint Extern 0 (sim _ _ (docTypeLoop _ _ _) _) => eapply sim_docTypeLoop; rel_side : sim.
Local Hint Extern 0 (sim _ _ (processDocType _) _) => eapply sim_processDocType; rel_side : sim.
Local Hint Extern 0 (sim _ _ (piNameLoop _ _) _) => eapply sim_piNameLoop; rel_side : sim.
Local Hint Extern 0 (sim _ _ (processPiTag _) _) => eapply sim_processPiTag; rel_side : sim.
Local Hint Extern 0 (sim _ _ (piValLoop _ _) _) => eapply sim_piValLoop; rel_side : sim.
Local Hint Extern 0 (sim _ _ (processPiVal _) _) => eapply sim_processPiVal; rel_side : sim.
Local Hint Extern 0 (sim _ _ (piEndNameLoop _ _) _) => eapply sim_piEndNameLoop; rel_side : sim.
Local Hint Extern 0 (sim _ _ (piEndValLoop _ _) _) => eapply sim_piEndValLoop; rel_side : sim.
Local Hint Extern 0 (sim _ _ (processPiEnd _) _) => eapply sim_processPiEnd; rel_side : sim.
Local Hint Extern 0 (sim _ _ (attrNameLoop _ _) _) => eapply sim_attrNameLoop; rel_side : sim.
Local Hint Extern 0 (sim _ _ (attrUniqueLoop _ _ _) _) => eapply sim_attrUniqueLoop; rel_side : sim.
Local Hint Extern 0 (sim _ _ (attrNameXmlns _) _) => eapply sim_attrNameXmlns; rel_side : sim.
Local Hint Extern 0 (sim _ _ (attrValLoop _ _ _) _) => eapply sim_attrValLoop; rel_side : sim.
Local Hint Extern 0 (sim _ _ (writeDec _ _) _) => eapply sim_writeDec; rel_side : sim.
Local Hint Extern 0 (sim _ _ (skipEitherCase _ _) _) => eapply sim_skipEitherCase; rel_side : sim.
Local Hint Extern 0 (sim _ _ (cannotSwitch) _) => eapply sim_cannotSwitch; rel_side : sim.
Local Hint Extern 0 (sim _ _ (checkIsoEncoding _) _) => eapply sim_checkIsoEncoding; rel_side : sim.
Local Hint Extern 0 (sim _ _ (checkUtfEncoding _) _) => eapply sim_checkUtfEncoding; rel_side : sim.
Local Hint Extern 0 (sim _ _ (checkWinEncoding _ _ _ _) _) => eapply sim_checkWinEncoding; rel_side : sim.
Local Hint Extern 0 (sim _ _ (checkCpEncoding _) _) => eapply sim_checkCpEncoding; rel_side : sim.
Local Hint Extern 0 (sim _ _ (checkWindowsEncoding _) _) => eapply sim_checkWindowsEncoding; rel_side : sim.
Local Hint Extern 0 (sim _ _ (processDecStandaloneAttr _) _) => eapply sim_processDecStandaloneAttr; rel_side : sim.
Local Hint Extern 0 (sim _ _ (decVersionName _) _) => eapply sim_decVersionName; rel_side : sim.
Local Hint Extern 0 (sim _ _ (decEnd _) _) => eapply sim_decEnd; rel_side : sim.
Local Hint Extern 0 (sim _ _ (parseErr _ _) _) => eapply sim_parseErr; rel_side : sim.
Local Hint Extern 0 (sim _ _ (parseErrAt _ _ _) _) => eapply sim_parseErrAt; rel_side : sim.
Local Hint Extern 0 (sim _ _ (storeAttrName) _) => eapply sim_storeAttrName; rel_side : sim.
Local Hint Extern 0 (sim _ _ (idx _ _) _) => eapply pr_idx; rel_side : sim.
Local Hint Extern 0 (sim _ _ (getChar _) _) => eapply pr_getChar; rel_side : sim.
Local Hint Extern 0 (sim _ _ (skipChar _ _) _) => eapply pr_skipChar; rel_side : sim.
Local Hint Extern 0 (sim _ _ (skipCharSeq _ _) _) => eapply pr_skipCharSeq; rel_side : sim.
Local Hint Extern 0 (sim _ _ (fmtCustomLine _ _) _) => eapply pr_line; rel_side : sim.
Lemma sim_startTagNameLoop : forall n1 n2 , fle mono n1 n2 -> sim R esc (startTagNameLoop cf1 n1) (startTagNameLoop cf2 n2).
Proof. loop_intro. cbn [startTagNameLoop]. rewrite HN. rel. Qed.
Local Hint Extern 0 (sim _ _ (startTagNameLoop _ _) _) => apply sim_startTagNameLoop; rel_side : sim.
Lemma sim_qualifyElementLoop : forall n i l o, sim R esc (qualifyElementLoop cf1 n i l o) (qualifyElementLoop cf2 n i l o).
Proof. induction n as [|n IH]; intros i l o; cbn [qualifyElementLoop]; rel. Qed.
Local Hint Extern 0 (sim _ _ (qualifyElementLoop _ _ _ _ _) _) => apply sim_qualifyElementLoop : sim.
Lemma sim_qualifyElement : sim R esc (qualifyElement cf1) (qualifyElement cf2).
Proof. unfold qualifyElement. rel. Qed.
Local Hint Extern 0 (sim _ _ (qualifyElement _) _) => apply sim_qualifyElement : sim.
Lemma sim_startTagNs : sim R esc (startTagNs cf1) (startTagNs cf2).
Proof. unfold startTagNs. rewrite HN. rel. Qed.
Lemma sim_appendNs1 : sim R esc appendNs1 appendNs1.
Proof.
  unfold appendNs1. rel. apply sim_appendTo; [reflexivity | | intros; apply (fl_ns1 _ HL); assumption].
  intros s1 s2 H1. exact (f_equal s_ns1 (fl_graft _ HL _ _ H1)).
Qed.
Local Hint Extern 0 (sim _ _ (appendNs1) _) => apply sim_appendNs1 : sim.
Lemma sim_storePrefName : sim R esc storePrefName storePrefName.
Proof.
  intros s1 s2 H. left. unfold storePrefName. pose proof (fl_graft _ HL _ _ H) as E. rewrite E. rewrite E in H.
  change (s_prefNames (graftL s2 s1)) with (s_prefNames s2). change (s_prefCount (graftL s2 s1)) with (s_prefCount s2).
  change (s_last (graftL s2 s1)) with (s_last s2). change (s_len1 (graftL s2 s1)) with (s_len1 s2). change (s_len2 (graftL s2 s1)) with (s_len2 s2).
  destruct (zupd _ _ _) as [l|]; [|reflexivity]. split; [reflexivity|]. apply (fl_prefCount _ HL), (fl_prefNames _ HL), H.
Qed.
Local Hint Extern 0 (sim _ _ (storePrefName) _) => apply sim_storePrefName : sim.
Lemma sim_checkAttrUniqueness : sim R esc (checkAttrUniqueness cf1) (checkAttrUniqueness cf2).
Proof. unfold checkAttrUniqueness. rewrite HN. rel. Qed.
Local Hint Extern 0 (sim _ _ (checkAttrUniqueness _) _) => apply sim_checkAttrUniqueness : sim.
Lemma sim_attrNameNsChecks : sim R esc (attrNameNsChecks cf1) (attrNameNsChecks cf2).
Proof. unfold attrNameNsChecks. rewrite HN. rel. Qed.
Local Hint Extern 0 (sim _ _ (attrNameNsChecks _) _) => apply sim_attrNameNsChecks : sim.
Lemma sim_ns3 v : sim R esc (appendTo s_ns3 set_ns3 v) (appendTo s_ns3 set_ns3 v).
Proof.
  apply sim_appendTo; [reflexivity | | intros; apply (fl_ns3 _ HL); assumption].
  intros s1 s2 H1. exact (f_equal s_ns3 (fl_graft _ HL _ _ H1)).
Qed.
Lemma sim_ns2 v : sim R esc (appendTo s_ns2 set_ns2 v) (appendTo s_ns2 set_ns2 v).
Proof.
  apply sim_appendTo; [reflexivity | | intros; apply (fl_ns2 _ HL); assumption].
  intros s1 s2 H1. exact (f_equal s_ns2 (fl_graft _ HL _ _ H1)).
Qed.
Local Hint Extern 0 (sim _ _ (appendTo s_ns3 _ _) _) => apply sim_ns3 : sim.
Local Hint Extern 0 (sim _ _ (appendTo s_ns2 _ _) _) => apply sim_ns2 : sim.
Lemma sim_writeAttrName : sim R esc (writeAttrName cf1) (writeAttrName cf2).
Proof. unfold writeAttrName. rewrite HN. rel. Qed.
Local Hint Extern 0 (sim _ _ (writeAttrName _) _) => apply sim_writeAttrName : sim.
Lemma sim_getCharUnit : forall o, sim R esc (getCharUnit cf1 o) (getCharUnit cf2 o).
Proof. intros. unfold getCharUnit. rel. Qed.
Local Hint Extern 0 (sim _ _ (getCharUnit _ _) _) => apply sim_getCharUnit : sim.
Lemma sim_resolvedSeq : forall l o i, sim R esc (resolvedSeq cf1 l o i) (resolvedSeq cf2 l o i).
Proof. induction l as [|c l IH]; intros o i; cbn [resolvedSeq]; rel. Qed.
Local Hint Extern 0 (sim _ _ (resolvedSeq _ _ _ _) _) => apply sim_resolvedSeq : sim.
Lemma sim_resolvedHex : forall n1 n2 o i v, fle mono n1 n2 -> sim R esc (resolvedHex cf1 n1 o i v) (resolvedHex cf2 n2 o i v).
Proof. loop_intro. cbn [resolvedHex]. rel. Qed.
Local Hint Extern 0 (sim _ _ (resolvedHex _ _ _ _ _) _) => apply sim_resolvedHex; rel_side : sim.
Lemma sim_resolvedDec : forall n1 n2 o i v, fle mono n1 n2 -> sim R esc (resolvedDec cf1 n1 o i v) (resolvedDec cf2 n2 o i v).
Proof. loop_intro. cbn [resolvedDec]. rel. Qed.
Local Hint Extern 0 (sim _ _ (resolvedDec _ _ _ _ _) _) => apply sim_resolvedDec; rel_side : sim.
Lemma sim_getCharResolved : forall o, sim R esc (getCharResolved cf1 o) (getCharResolved cf2 o).
Proof. intros. unfold getCharResolved. rel. Qed.
Local Hint Extern 0 (sim _ _ (getCharResolved _ _) _) => apply sim_getCharResolved : sim.
Lemma sim_nsUrlLoop : forall l o g, sim R esc (nsUrlLoop cf1 l o g) (nsUrlLoop cf2 l o g).
Proof. induction l as [|c l IH]; intros o g; cbn [nsUrlLoop]; rel. Qed.
Local Hint Extern 0 (sim _ _ (nsUrlLoop _ _ _ _) _) => apply sim_nsUrlLoop : sim.
Lemma sim_identifyNsUrl : sim R esc (identifyNsUrl cf1) (identifyNsUrl cf2).
Proof. unfold identifyNsUrl. rel. Qed.
Local Hint Extern 0 (sim _ _ (identifyNsUrl _) _) => apply sim_identifyNsUrl : sim.
Lemma sim_qualifyAttrLoop : forall n i l o, sim R esc (qualifyAttrLoop cf1 n i l o) (qualifyAttrLoop cf2 n i l o).
Proof. induction n as [|n IH]; intros i l o; cbn [qualifyAttrLoop]; rel. Qed.
Local Hint Extern 0 (sim _ _ (qualifyAttrLoop _ _ _ _ _) _) => apply sim_qualifyAttrLoop : sim.
Lemma sim_prefNameAt : forall j, sim R esc (prefNameAt j) (prefNameAt j).
Proof.
  intros j s1 s2 H. left. unfold prefNameAt. pose proof (fl_graft _ HL _ _ H) as E. rewrite E. rewrite E in H.
  change (s_prefNames (graftL s2 s1)) with (s_prefNames s2). destruct (znth _ _) as [l|]; [|reflexivity]. split; [reflexivity | exact H].
Qed.
Lemma sim_prefUrlAt : forall j, sim R esc (prefUrlAt j) (prefUrlAt j).
Proof.
  intros j s1 s2 H. left. unfold prefUrlAt. pose proof (fl_graft _ HL _ _ H) as E. rewrite E. rewrite E in H.
  change (s_prefUrls (graftL s2 s1)) with (s_prefUrls s2). destruct (znth _ _) as [l|]; [|reflexivity]. split; [reflexivity | exact H].
Qed.
Local Hint Extern 0 (sim _ _ (prefNameAt _) _) => apply sim_prefNameAt : sim.
Local Hint Extern 0 (sim _ _ (prefUrlAt _) _) => apply sim_prefUrlAt : sim.
Lemma sim_qualifyAttrsLoop : forall n j, sim R esc (qualifyAttrsLoop cf1 n j) (qualifyAttrsLoop cf2 n j).
Proof. induction n as [|n IH]; intros j; cbn [qualifyAttrsLoop]; rel. Qed.
Local Hint Extern 0 (sim _ _ (qualifyAttrsLoop _ _ _) _) => apply sim_qualifyAttrsLoop : sim.
Lemma sim_qualifyAttributes : sim R esc (qualifyAttributes cf1) (qualifyAttributes cf2).
Proof. unfold qualifyAttributes. rel. Qed.
Local Hint Extern 0 (sim _ _ (qualifyAttributes _) _) => apply sim_qualifyAttributes : sim.
Lemma sim_matchUrlLoop : forall n1 n2 a b c d, fle mono n1 n2 -> sim R esc (matchUrlLoop cf1 n1 a b c d) (matchUrlLoop cf2 n2 a b c d).
Proof. loop_intro. cbn [matchUrlLoop]. rel. Qed.
Local Hint Extern 0 (sim _ _ (matchUrlLoop _ _ _ _ _ _) _) => apply sim_matchUrlLoop; rel_side : sim.
Lemma fle_4fuel : fle mono (4 * fuel cf1) (4 * fuel cf2).
Proof. pose proof (pr_fuel _ _ _ _ _ HP) as H. unfold fle. destruct mono; lia. Qed.
Lemma sim_matchUrl : forall a b c d, sim R esc (matchUrl cf1 a b c d) (matchUrl cf2 a b c d).
Proof. intros. unfold matchUrl. apply sim_matchUrlLoop. exact fle_4fuel. Qed.
Local Hint Extern 0 (sim _ _ (matchUrl _ _ _ _ _) _) => apply sim_matchUrl : sim.
Lemma sim_urlOf : forall i, sim R esc (urlOf i) (urlOf i).
Proof. intros. unfold urlOf. rel. Qed.
Local Hint Extern 0 (sim _ _ (urlOf _) _) => apply sim_urlOf : sim.
Lemma sim_qualUniqueInner : forall n j o l u, sim R esc (qualUniqueInner cf1 n j o l u) (qualUniqueInner cf2 n j o l u).
Proof. induction n as [|n IH]; intros j o l u; cbn [qualUniqueInner]; rel. Qed.
Local Hint Extern 0 (sim _ _ (qualUniqueInner _ _ _ _ _ _) _) => apply sim_qualUniqueInner : sim.
Lemma sim_qualUniqueOuter : forall n i t, sim R esc (qualUniqueOuter cf1 n i t) (qualUniqueOuter cf2 n i t).
Proof. induction n as [|n IH]; intros i t; cbn [qualUniqueOuter]; rel. Qed.
Local Hint Extern 0 (sim _ _ (qualUniqueOuter _ _ _ _) _) => apply sim_qualUniqueOuter : sim.
Lemma sim_checkQualifiedAttributeUniqueness : sim R esc (checkQualifiedAttributeUniqueness cf1) (checkQualifiedAttributeUniqueness cf2).
Proof. unfold checkQualifiedAttributeUniqueness. rel. Qed.
Local Hint Extern 0 (sim _ _ (checkQualifiedAttributeUniqueness _) _) => apply sim_checkQualifiedAttributeUniqueness : sim.
Lemma sim_attrValNs : sim R esc (attrValNs cf1) (attrValNs cf2).
Proof. unfold attrValNs. rewrite HN. rel. Qed.
Local Hint Extern 0 (sim _ _ (attrValNs _) _) => apply sim_attrValNs : sim.

Lemma special_same :
  sim R esc (writeStartTag cf1) (writeStartTag cf2) ->
  sim R esc (checkAsciiEncoding cf1) (checkAsciiEncoding cf2) -> sim R esc (checkUsAsciiEncoding cf1) (checkUsAsciiEncoding cf2) ->
  special cf1 cf2 R esc.
Proof.
  intros H1 H2 H3. constructor; try assumption; try solve [auto 1 with sim nocore].
  - intros k1 k2 K. rel. apply sim_startTagNs.
  - cbv beta zeta. rewrite HN. rel.
  - cbv beta zeta. rewrite HN. rel.
Qed.
End Ns.
