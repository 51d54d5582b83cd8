(** Every function of the parser leaves the page sizes of the buffers as they are. *)
From Verif Require Import Lib XmlChar Buffer BufferProofs Reader ParserState ParserPrim ParserProc ParserMain ParserWp ParserOutcome PropertiesParse.

(** The page exponents of the buffers of a parser *)
Definition exps (s : pst) : Z * Z * Z * Z * Z * Z :=
  (b_exp (s_vtd s), b_exp (s_l1 s), b_exp (s_l2 s), b_exp (s_l3 s), b_exp (s_l4 s), b_exp (s_l5 s)).

Definition fr {A} (m : M A) : Prop := forall s, match m s with ROk _ s' | RErr _ s' => exps s' = exps s | _ => True end.
Lemma fr_bind {A B} (m : M A) (k : A -> M B) : fr m -> (forall a, fr (k a)) -> fr (bind m k).
Proof. intros H K s. unfold bind. specialize (H s). destruct (m s) as [a s'|e s'|w|]; try exact H. specialize (K a s'). destruct (k a s'); try exact K; congruence. Qed.
Lemma fr_catch {A B} (m : M A) (h : goerr -> M B) (k : A -> M B) : fr m -> (forall e, fr (h e)) -> (forall a, fr (k a)) -> fr (catch m h k).
Proof.
  intros H E K s. unfold catch. specialize (H s). destruct (m s) as [a s'|e s'|w|]; try exact I.
  - specialize (K a s'). destruct (k a s'); try exact K; congruence.
  - specialize (E e s'). destruct (h e s'); try exact E; congruence.
Qed.
Lemma fr_get {A} (f : pst -> A) : fr (get f). Proof. intros s. reflexivity. Qed.
Lemma fr_ret {A} (a : A) : fr (ret a). Proof. intros s. reflexivity. Qed.
Lemma fr_fail {A} e : fr (@fail A e). Proof. intros s. reflexivity. Qed.
Lemma fr_panics {A} w : fr (@panics A w). Proof. intros s. exact I. Qed.
Lemma fr_diverge {A} : fr (@diverge A). Proof. intros s. exact I. Qed.
Lemma fr_lift {A} (o : out A) : fr (lift o). Proof. intros s. unfold lift. destruct o; first [reflexivity | exact I]. Qed.
Lemma bappend_exp {V} (b : pbuf V) v : b_exp (fst (bappend b v)) = b_exp b.
Proof.
  unfold bappend. destruct (b_size b <? b_cap b); [|reflexivity]. destruct (bget b _); try reflexivity. unfold bset. cbn [b_pages setSize].
  repeat match goal with |- context [if ?c then _ else _] => destruct c end; try reflexivity. destruct (zupd _ _ _); reflexivity.
Qed.

Create HintDb fr.
Ltac fstep :=
  match goal with
  | |- fr (bind _ _) => apply fr_bind; [|intros ?]
  | |- fr (catch _ _ _) => apply fr_catch; [|intros ?|intros ?]
  | |- fr (get _) => apply fr_get
  | |- fr (ret _) => apply fr_ret
  | |- fr (fail _) => apply fr_fail
  | |- fr (panics _) => apply fr_panics
  | |- fr diverge => apply fr_diverge
  | |- fr (lift _) => apply fr_lift
  | |- fr (modify _) => intros s; reflexivity
  | |- fr (if ?b then _ else _) => destruct b
  | |- fr (match ?x with _ => _ end) => destruct x
  | |- fr (let _ := _ in _) => cbv zeta
  | |- fr ((if ?b then _ else _) _ _ _ _) => destruct b
  | |- fr (andM _ _) => unfold andM
  | |- fr (orM _ _) => unfold orM
  | |- fr (notM _) => unfold notM
  | H : _ |- _ => solve [apply H]
  | |- fr _ => solve [eauto 2 with fr]
  end.
Ltac fgo := repeat fstep.

Section Frame.
Variable cf : cfg.

Lemma fr_append g st v : (forall s b, exps (st b s) = exps s \/ b_exp b = b_exp (g s) -> b_exp b = b_exp (g s) -> exps (st b s) = exps s) -> fr (appendTo g st v).
Proof.
  intros H s. unfold appendTo. pose proof (bappend_exp (g s) v) as X. destruct (bappend (g s) v) as [b o]. cbn [fst] in X.
  assert (E : exps (st b s) = exps s) by (apply H; [right|]; exact X). destruct o; first [exact E | exact I].
Qed.
Ltac fapp := intros; apply fr_append; intros s b _ E; unfold exps; cbn; rewrite ?E; reflexivity.
Lemma fr_vtd v : fr (appendTo s_vtd set_vtd v). Proof. fapp. Qed.
Lemma fr_l1 v : fr (appendTo s_l1 set_l1 v). Proof. fapp. Qed.
Lemma fr_l2 v : fr (appendTo s_l2 set_l2 v). Proof. fapp. Qed.
Lemma fr_l3 v : fr (appendTo s_l3 set_l3 v). Proof. fapp. Qed.
Lemma fr_l4 v : fr (appendTo s_l4 set_l4 v). Proof. fapp. Qed.
Lemma fr_l5 v : fr (appendTo s_l5 set_l5 v). Proof. fapp. Qed.
Lemma fr_ns1 v : fr (appendTo s_ns1 set_ns1 v). Proof. fapp. Qed.
Lemma fr_ns2 v : fr (appendTo s_ns2 set_ns2 v). Proof. fapp. Qed.
Lemma fr_ns3 v : fr (appendTo s_ns3 set_ns3 v). Proof. fapp. Qed.
Hint Resolve fr_vtd fr_l1 fr_l2 fr_l3 fr_l4 fr_l5 fr_ns1 fr_ns2 fr_ns3 : fr.
Ltac fraw := let s := fresh "s" in intros s; cbv beta; repeat match goal with |- context [match ?x with _ => _ end] => lazymatch x with context [match _ with _ => _ end] => fail | _ => destruct x end end; first [reflexivity | exact I].

Lemma fr_idx : forall i, fr (idx cf i).
Proof. intros. unfold idx. fraw. Qed.
Hint Resolve fr_idx : fr.
Lemma fr_setOffset : forall o, fr (setOffset o).
Proof. intros. unfold setOffset. fraw. Qed.
Hint Resolve fr_setOffset : fr.
Lemma fr_getChar : fr (getChar cf ).
Proof. intros. unfold getChar. fraw. Qed.
Hint Resolve fr_getChar : fr.
Lemma fr_skipChar : forall ch, fr (skipChar cf ch).
Proof. intros. unfold skipChar. fraw. Qed.
Hint Resolve fr_skipChar : fr.
Lemma fr_skipCharSeq : forall seq, fr (skipCharSeq cf seq).
Proof. intros. unfold skipCharSeq. fraw. Qed.
Hint Resolve fr_skipCharSeq : fr.
Lemma fr_skipCharSeqIgnoreCase : forall seq, fr (skipCharSeqIgnoreCase cf seq).
Proof. intros seq. induction seq; intros; cbn [skipCharSeqIgnoreCase]; fgo. Qed.
Hint Resolve fr_skipCharSeqIgnoreCase : fr.
Lemma fr_nextChar : fr (nextChar cf ).
Proof. intros. unfold nextChar. fgo. Qed.
Hint Resolve fr_nextChar : fr.
Lemma fr_nextCharAfterWsLoop : forall n, fr (nextCharAfterWsLoop cf n).
Proof. intros n. induction n; intros; cbn [nextCharAfterWsLoop]; fgo. Qed.
Hint Resolve fr_nextCharAfterWsLoop : fr.
Lemma fr_nextCharAfterWs : fr (nextCharAfterWs cf ).
Proof. intros. unfold nextCharAfterWs. fgo. Qed.
Hint Resolve fr_nextCharAfterWs : fr.
Lemma fr_writeVtd : forall typ offset len depth, fr (writeVtd typ offset len depth).
Proof. intros. unfold writeVtd. fgo. Qed.
Hint Resolve fr_writeVtd : fr.
Lemma fr_writeVtdL5 : forall typ offset len depth, fr (writeVtdL5 typ offset len depth).
Proof. intros. unfold writeVtdL5. fgo. Qed.
Hint Resolve fr_writeVtdL5 : fr.
Lemma fr_writeVtdTextLoop : forall n typ rOffset j depth, fr (writeVtdTextLoop n typ rOffset j depth).
Proof. intros n. induction n; intros; cbn [writeVtdTextLoop]; fgo. Qed.
Hint Resolve fr_writeVtdTextLoop : fr.
Lemma fr_writeVtdText : forall typ offset len depth, fr (writeVtdText typ offset len depth).
Proof. intros. unfold writeVtdText. fgo. Qed.
Hint Resolve fr_writeVtdText : fr.
Lemma fr_fmtCustomLine : forall offset, fr (fmtCustomLine cf offset).
Proof. intros. unfold fmtCustomLine. fraw. Qed.
Hint Resolve fr_fmtCustomLine : fr.
Lemma fr_fmtLine : fr (fmtLine cf ).
Proof. intros. unfold fmtLine. fgo. Qed.
Hint Resolve fr_fmtLine : fr.
Lemma fr_parseErr : forall A msg, fr (@parseErr cf A msg).
Proof. intros. unfold parseErr. fgo. Qed.
Hint Resolve fr_parseErr : fr.
Lemma fr_parseErrAt : forall A msg offset, fr (@parseErrAt cf A msg offset).
Proof. intros. unfold parseErrAt. fgo. Qed.
Hint Resolve fr_parseErrAt : fr.
Lemma fr_writeVtdWithLengthCheck : forall typ errMsg, fr (writeVtdWithLengthCheck cf typ errMsg).
Proof. intros. unfold writeVtdWithLengthCheck. fgo. Qed.
Hint Resolve fr_writeVtdWithLengthCheck : fr.
Lemma fr_prevUtf8 : forall n o, fr (prevUtf8 cf n o).
Proof. intros n. induction n; intros; cbn [prevUtf8]; fgo. Qed.
Hint Resolve fr_prevUtf8 : fr.
Lemma fr_getPrevOffset : fr (getPrevOffset cf ).
Proof. intros. unfold getPrevOffset. fgo. Qed.
Hint Resolve fr_getPrevOffset : fr.
Lemma fr_matchAt : forall o pat, fr (matchAt cf o pat).
Proof. intros o pat. revert o. induction pat; intros; cbn [matchAt]; fgo. Qed.
Hint Resolve fr_matchAt : fr.
Lemma fr_decideEncoding : fr (decideEncoding cf ).
Proof. intros. unfold decideEncoding. fgo. Qed.
Hint Resolve fr_decideEncoding : fr.
Lemma fr_checkXmlPrefix : forall offset len checkLength, fr (checkXmlPrefix cf offset len checkLength).
Proof. intros. unfold checkXmlPrefix. fgo. Qed.
Hint Resolve fr_checkXmlPrefix : fr.
Lemma fr_checkXmlnsPrefix : forall offset len checkLength, fr (checkXmlnsPrefix cf offset len checkLength).
Proof. intros. unfold checkXmlnsPrefix. fgo. Qed.
Hint Resolve fr_checkXmlnsPrefix : fr.
Lemma fr_matchBytes : forall n a b j, fr (matchBytes cf n a b j).
Proof. intros n. induction n; intros; cbn [matchBytes]; fgo. Qed.
Hint Resolve fr_matchBytes : fr.
Lemma fr_qualifyElementLoop : forall n i preLen preOs, fr (qualifyElementLoop cf n i preLen preOs).
Proof. intros n. induction n; intros; cbn [qualifyElementLoop]; fgo. Qed.
Hint Resolve fr_qualifyElementLoop : fr.
Lemma fr_qualifyElement : fr (qualifyElement cf ).
Proof. intros. unfold qualifyElement. fgo. Qed.
Hint Resolve fr_qualifyElement : fr.
Lemma fr_recordWhiteSpace : fr (recordWhiteSpace ).
Proof. intros. unfold recordWhiteSpace. fgo. Qed.
Hint Resolve fr_recordWhiteSpace : fr.
Lemma fr_entSeq : forall seq, fr (entSeq cf seq).
Proof. intros seq. induction seq; intros; cbn [entSeq]; fgo. Qed.
Hint Resolve fr_entSeq : fr.
Lemma fr_entHex : forall n value, fr (entHex cf n value).
Proof. intros n. induction n; intros; cbn [entHex]; fgo. Qed.
Hint Resolve fr_entHex : fr.
Lemma fr_entDec : forall n c value, fr (entDec cf n c value).
Proof. intros n. induction n; intros; cbn [entDec]; fgo. Qed.
Hint Resolve fr_entDec : fr.
Lemma fr_entityIdentifier : fr (entityIdentifier cf ).
Proof. intros. unfold entityIdentifier. fgo. Qed.
Hint Resolve fr_entityIdentifier : fr.
Lemma fr_skipRbrLoop : forall n, fr (skipRbrLoop cf n).
Proof. intros n. induction n; intros; cbn [skipRbrLoop]; fgo. Qed.
Hint Resolve fr_skipRbrLoop : fr.
Lemma fr_skipRbr : fr (skipRbr cf ).
Proof. intros. unfold skipRbr. fgo. Qed.
Hint Resolve fr_skipRbr : fr.
Lemma fr_handleOtherTextChar : forall c, fr (handleOtherTextChar cf c).
Proof. intros. unfold handleOtherTextChar. fgo. Qed.
Hint Resolve fr_handleOtherTextChar : fr.
Lemma fr_validateSeqLoop : forall name seq, fr (validateSeqLoop cf name seq).
Proof. intros name seq. revert name. induction seq; intros; cbn [validateSeqLoop]; fgo. Qed.
Hint Resolve fr_validateSeqLoop : fr.
Lemma fr_validateSeq : forall name, fr (validateSeq cf name).
Proof. intros. unfold validateSeq. fgo. Qed.
Hint Resolve fr_validateSeq : fr.
Lemma fr_getNextProcessStateFromChar : forall c, fr (getNextProcessStateFromChar cf c).
Proof. intros. unfold getNextProcessStateFromChar. fgo. Qed.
Hint Resolve fr_getNextProcessStateFromChar : fr.
Lemma fr_writeTextHere : forall typ, fr (writeTextHere typ).
Proof. intros. unfold writeTextHere. fgo. Qed.
Hint Resolve fr_writeTextHere : fr.
Lemma fr_writeEmptyPiVal : fr (writeEmptyPiVal ).
Proof. intros. unfold writeEmptyPiVal. fgo. Qed.
Hint Resolve fr_writeEmptyPiVal : fr.
Lemma fr_markLast : fr (markLast ).
Proof. intros. unfold markLast. fgo. Qed.
Hint Resolve fr_markLast : fr.
Lemma fr_processElementTail : fr (processElementTail cf ).
Proof. intros. unfold processElementTail. fgo. Qed.
Hint Resolve fr_processElementTail : fr.
Lemma fr_startTagNameLoop : forall n, fr (startTagNameLoop cf n).
Proof. intros n. induction n; intros; cbn [startTagNameLoop]; fgo. Qed.
Hint Resolve fr_startTagNameLoop : fr.
Lemma fr_setTag : forall i v, fr (setTag i v).
Proof. intros. unfold setTag. fraw. Qed.
Hint Resolve fr_setTag : fr.
Lemma fr_startTagNs : fr (startTagNs cf ).
Proof. intros. unfold startTagNs. fgo. Qed.
Hint Resolve fr_startTagNs : fr.
Lemma fr_writeStartTag : fr (writeStartTag cf ).
Proof. intros. unfold writeStartTag. fgo. Qed.
Hint Resolve fr_writeStartTag : fr.
Lemma fr_appendNs1 : fr (appendNs1 ).
Proof. intros. unfold appendNs1. fgo. Qed.
Hint Resolve fr_appendNs1 : fr.
Lemma fr_startTagClose : fr (startTagClose cf ).
Proof. intros. unfold startTagClose. fgo. Qed.
Hint Resolve fr_startTagClose : fr.
Lemma fr_processStartTag : fr (processStartTag cf ).
Proof. intros. unfold processStartTag. fgo. Qed.
Hint Resolve fr_processStartTag : fr.
Lemma fr_endTagCompare : forall n a b, fr (endTagCompare cf n a b).
Proof. intros n. induction n; intros; cbn [endTagCompare]; fgo. Qed.
Hint Resolve fr_endTagCompare : fr.
Lemma fr_processEndTag : fr (processEndTag cf ).
Proof. intros. unfold processEndTag. fgo. Qed.
Hint Resolve fr_processEndTag : fr.
Lemma fr_processExSeen : fr (processExSeen cf ).
Proof. intros. unfold processExSeen. fgo. Qed.
Hint Resolve fr_processExSeen : fr.
Lemma fr_isXmlTarget : forall c, fr (isXmlTarget cf c).
Proof. intros. unfold isXmlTarget. fgo. Qed.
Hint Resolve fr_isXmlTarget : fr.
Lemma fr_processQmSeen : fr (processQmSeen cf ).
Proof. intros. unfold processQmSeen. fgo. Qed.
Hint Resolve fr_processQmSeen : fr.
Lemma fr_processLtSeen : fr (processLtSeen cf ).
Proof. intros. unfold processLtSeen. fgo. Qed.
Hint Resolve fr_processLtSeen : fr.
Lemma fr_textLoop : forall n, fr (textLoop cf n).
Proof. intros n. induction n; intros; cbn [textLoop]; fgo. Qed.
Hint Resolve fr_textLoop : fr.
Lemma fr_processText : fr (processText cf ).
Proof. intros. unfold processText. fgo. Qed.
Hint Resolve fr_processText : fr.
Lemma fr_cdataLoop : forall n, fr (cdataLoop cf n).
Proof. intros n. induction n; intros; cbn [cdataLoop]; fgo. Qed.
Hint Resolve fr_cdataLoop : fr.
Lemma fr_processCdata : fr (processCdata cf ).
Proof. intros. unfold processCdata. fgo. Qed.
Hint Resolve fr_processCdata : fr.
Lemma fr_commentLoop : forall n, fr (commentLoop cf n).
Proof. intros n. induction n; intros; cbn [commentLoop]; fgo. Qed.
Hint Resolve fr_commentLoop : fr.
Lemma fr_processStartComment : fr (processStartComment cf ).
Proof. intros. unfold processStartComment. fgo. Qed.
Hint Resolve fr_processStartComment : fr.
Lemma fr_processEndComment : fr (processEndComment cf ).
Proof. intros. unfold processEndComment. fgo. Qed.
Hint Resolve fr_processEndComment : fr.
Lemma fr_processDocEnd : fr (processDocEnd cf ).
Proof. intros. unfold processDocEnd. fgo. Qed.
Hint Resolve fr_processDocEnd : fr.
Lemma fr_skipXmlDecl : fr (skipXmlDecl cf ).
Proof. intros. unfold skipXmlDecl. fgo. Qed.
Hint Resolve fr_skipXmlDecl : fr.
Lemma fr_skipOneSpace : fr (skipOneSpace cf ).
Proof. intros. unfold skipOneSpace. fgo. Qed.
Hint Resolve fr_skipOneSpace : fr.
Lemma fr_processDocStart : fr (processDocStart cf ).
Proof. intros. unfold processDocStart. fgo. Qed.
Hint Resolve fr_processDocStart : fr.
Lemma fr_docTypeLoop : forall n z, fr (docTypeLoop cf n z).
Proof. intros n. induction n; intros; cbn [docTypeLoop]; fgo. Qed.
Hint Resolve fr_docTypeLoop : fr.
Lemma fr_processDocType : fr (processDocType cf ).
Proof. intros. unfold processDocType. fgo. Qed.
Hint Resolve fr_processDocType : fr.
Lemma fr_piNameLoop : forall n, fr (piNameLoop cf n).
Proof. intros n. induction n; intros; cbn [piNameLoop]; fgo. Qed.
Hint Resolve fr_piNameLoop : fr.
Lemma fr_processPiTag : fr (processPiTag cf ).
Proof. intros. unfold processPiTag. fgo. Qed.
Hint Resolve fr_processPiTag : fr.
Lemma fr_piValLoop : forall n, fr (piValLoop cf n).
Proof. intros n. induction n; intros; cbn [piValLoop]; fgo. Qed.
Hint Resolve fr_piValLoop : fr.
Lemma fr_processPiVal : fr (processPiVal cf ).
Proof. intros. unfold processPiVal. fgo. Qed.
Hint Resolve fr_processPiVal : fr.
Lemma fr_piEndNameLoop : forall n, fr (piEndNameLoop cf n).
Proof. intros n. induction n; intros; cbn [piEndNameLoop]; fgo. Qed.
Hint Resolve fr_piEndNameLoop : fr.
Lemma fr_piEndValLoop : forall n, fr (piEndValLoop cf n).
Proof. intros n. induction n; intros; cbn [piEndValLoop]; fgo. Qed.
Hint Resolve fr_piEndValLoop : fr.
Lemma fr_processPiEnd : fr (processPiEnd cf ).
Proof. intros. unfold processPiEnd. fgo. Qed.
Hint Resolve fr_processPiEnd : fr.
Lemma fr_attrNameLoop : forall n, fr (attrNameLoop cf n).
Proof. intros n. induction n; intros; cbn [attrNameLoop]; fgo. Qed.
Hint Resolve fr_attrNameLoop : fr.
Lemma fr_attrUniqueLoop : forall n i, fr (attrUniqueLoop cf n i).
Proof. intros n. induction n; intros; cbn [attrUniqueLoop]; fgo. Qed.
Hint Resolve fr_attrUniqueLoop : fr.
Lemma fr_storeAttrName : fr (storeAttrName ).
Proof. intros. unfold storeAttrName. fraw. Qed.
Hint Resolve fr_storeAttrName : fr.
Lemma fr_storePrefName : fr (storePrefName ).
Proof. intros. unfold storePrefName. fraw. Qed.
Hint Resolve fr_storePrefName : fr.
Lemma fr_checkAttrUniqueness : fr (checkAttrUniqueness cf ).
Proof. intros. unfold checkAttrUniqueness. fgo. Qed.
Hint Resolve fr_checkAttrUniqueness : fr.
Lemma fr_attrNameXmlns : fr (attrNameXmlns cf ).
Proof. intros. unfold attrNameXmlns. fgo. Qed.
Hint Resolve fr_attrNameXmlns : fr.
Lemma fr_attrNameNsChecks : fr (attrNameNsChecks cf ).
Proof. intros. unfold attrNameNsChecks. fgo. Qed.
Hint Resolve fr_attrNameNsChecks : fr.
Lemma fr_writeAttrName : fr (writeAttrName cf ).
Proof. intros. unfold writeAttrName. fgo. Qed.
Hint Resolve fr_writeAttrName : fr.
Lemma fr_processAttrName : fr (processAttrName cf ).
Proof. intros. unfold processAttrName. fgo. Qed.
Hint Resolve fr_processAttrName : fr.
Lemma fr_getCharUnit : forall offset, fr (getCharUnit cf offset).
Proof. intros. unfold getCharUnit. fgo. Qed.
Hint Resolve fr_getCharUnit : fr.
Lemma fr_resolvedSeq : forall seq offset inc, fr (resolvedSeq cf seq offset inc).
Proof. intros seq. induction seq; intros; cbn [resolvedSeq]; fgo. Qed.
Hint Resolve fr_resolvedSeq : fr.
Lemma fr_resolvedHex : forall n offset inc val, fr (resolvedHex cf n offset inc val).
Proof. intros n. induction n; intros; cbn [resolvedHex]; fgo. Qed.
Hint Resolve fr_resolvedHex : fr.
Lemma fr_resolvedDec : forall n offset inc val, fr (resolvedDec cf n offset inc val).
Proof. intros n. induction n; intros; cbn [resolvedDec]; fgo. Qed.
Hint Resolve fr_resolvedDec : fr.
Lemma fr_getCharResolved : forall offset, fr (getCharResolved cf offset).
Proof. intros. unfold getCharResolved. fgo. Qed.
Hint Resolve fr_getCharResolved : fr.
Lemma fr_nsUrlLoop : forall pat offset g, fr (nsUrlLoop cf pat offset g).
Proof. intros pat. induction pat; intros; cbn [nsUrlLoop]; fgo. Qed.
Hint Resolve fr_nsUrlLoop : fr.
Lemma fr_identifyNsUrl : fr (identifyNsUrl cf ).
Proof. intros. unfold identifyNsUrl. fgo. Qed.
Hint Resolve fr_identifyNsUrl : fr.
Lemma fr_qualifyAttrLoop : forall n i preLen preOs, fr (qualifyAttrLoop cf n i preLen preOs).
Proof. intros n. induction n; intros; cbn [qualifyAttrLoop]; fgo. Qed.
Hint Resolve fr_qualifyAttrLoop : fr.
Lemma fr_prefNameAt : forall j, fr (prefNameAt j).
Proof. intros. unfold prefNameAt. fraw. Qed.
Hint Resolve fr_prefNameAt : fr.
Lemma fr_prefUrlAt : forall j, fr (prefUrlAt j).
Proof. intros. unfold prefUrlAt. fraw. Qed.
Hint Resolve fr_prefUrlAt : fr.
Lemma fr_qualifyAttrsLoop : forall n j, fr (qualifyAttrsLoop cf n j).
Proof. intros n. induction n; intros; cbn [qualifyAttrsLoop]; fgo. Qed.
Hint Resolve fr_qualifyAttrsLoop : fr.
Lemma fr_qualifyAttributes : fr (qualifyAttributes cf ).
Proof. intros. unfold qualifyAttributes. fgo. Qed.
Hint Resolve fr_qualifyAttributes : fr.
Lemma fr_matchUrlLoop : forall n ao al bo bl, fr (matchUrlLoop cf n ao al bo bl).
Proof. intros n. induction n; intros; cbn [matchUrlLoop]; fgo. Qed.
Hint Resolve fr_matchUrlLoop : fr.
Lemma fr_matchUrl : forall ao al bo bl, fr (matchUrl cf ao al bo bl).
Proof. intros. unfold matchUrl. fgo. Qed.
Hint Resolve fr_matchUrl : fr.
Lemma fr_urlOf : forall i, fr (urlOf i).
Proof. intros. unfold urlOf. fgo. Qed.
Hint Resolve fr_urlOf : fr.
Lemma fr_qualUniqueInner : forall n j offset postLen urlA, fr (qualUniqueInner cf n j offset postLen urlA).
Proof. intros n. induction n; intros; cbn [qualUniqueInner]; fgo. Qed.
Hint Resolve fr_qualUniqueInner : fr.
Lemma fr_qualUniqueOuter : forall n i total, fr (qualUniqueOuter cf n i total).
Proof. intros n. induction n; intros; cbn [qualUniqueOuter]; fgo. Qed.
Hint Resolve fr_qualUniqueOuter : fr.
Lemma fr_checkQualifiedAttributeUniqueness : fr (checkQualifiedAttributeUniqueness cf ).
Proof. intros. unfold checkQualifiedAttributeUniqueness. fgo. Qed.
Hint Resolve fr_checkQualifiedAttributeUniqueness : fr.
Lemma fr_attrValLoop : forall n q, fr (attrValLoop cf n q).
Proof. intros n. induction n; intros; cbn [attrValLoop]; fgo. Qed.
Hint Resolve fr_attrValLoop : fr.
Lemma fr_attrValNs : fr (attrValNs cf ).
Proof. intros. unfold attrValNs. fgo. Qed.
Hint Resolve fr_attrValNs : fr.
Lemma fr_attrValClose : fr (attrValClose cf ).
Proof. intros. unfold attrValClose. fgo. Qed.
Hint Resolve fr_attrValClose : fr.
Lemma fr_processAttrVal : fr (processAttrVal cf ).
Proof. intros. unfold processAttrVal. fgo. Qed.
Hint Resolve fr_processAttrVal : fr.
Lemma fr_writeDec : forall typ len, fr (writeDec typ len).
Proof. intros. unfold writeDec. fgo. Qed.
Hint Resolve fr_writeDec : fr.
Lemma fr_skipEitherCase : forall l, fr (skipEitherCase cf l).
Proof. intros. unfold skipEitherCase. fgo. Qed.
Hint Resolve fr_skipEitherCase : fr.
Lemma fr_cannotSwitch : fr (cannotSwitch ).
Proof. intros. unfold cannotSwitch. fgo. Qed.
Hint Resolve fr_cannotSwitch : fr.
Lemma fr_switchToAscii : fr (switchToAscii cf ).
Proof. intros. unfold switchToAscii. fgo. Qed.
Hint Resolve fr_switchToAscii : fr.
Lemma fr_checkAsciiEncoding : fr (checkAsciiEncoding cf ).
Proof. intros. unfold checkAsciiEncoding. fgo. Qed.
Hint Resolve fr_checkAsciiEncoding : fr.
Lemma fr_checkUsAsciiEncoding : fr (checkUsAsciiEncoding cf ).
Proof. intros. unfold checkUsAsciiEncoding. fgo. Qed.
Hint Resolve fr_checkUsAsciiEncoding : fr.
Lemma fr_checkIsoEncoding : fr (checkIsoEncoding cf ).
Proof. intros. unfold checkIsoEncoding. fgo. Qed.
Hint Resolve fr_checkIsoEncoding : fr.
Lemma fr_checkUtfEncoding : fr (checkUtfEncoding cf ).
Proof. intros. unfold checkUtfEncoding. fgo. Qed.
Hint Resolve fr_checkUtfEncoding : fr.
Lemma fr_checkWinEncoding : forall rest len msg, fr (checkWinEncoding cf rest len msg).
Proof. intros. unfold checkWinEncoding. fgo. Qed.
Hint Resolve fr_checkWinEncoding : fr.
Lemma fr_checkCpEncoding : fr (checkCpEncoding cf ).
Proof. intros. unfold checkCpEncoding. fgo. Qed.
Hint Resolve fr_checkCpEncoding : fr.
Lemma fr_checkWindowsEncoding : fr (checkWindowsEncoding cf ).
Proof. intros. unfold checkWindowsEncoding. fgo. Qed.
Hint Resolve fr_checkWindowsEncoding : fr.
Lemma fr_processDecEncodingAttr : fr (processDecEncodingAttr cf ).
Proof. intros. unfold processDecEncodingAttr. fgo. Qed.
Hint Resolve fr_processDecEncodingAttr : fr.
Lemma fr_processDecStandaloneAttr : fr (processDecStandaloneAttr cf ).
Proof. intros. unfold processDecStandaloneAttr. fgo. Qed.
Hint Resolve fr_processDecStandaloneAttr : fr.
Lemma fr_decVersionName : fr (decVersionName cf ).
Proof. intros. unfold decVersionName. fgo. Qed.
Hint Resolve fr_decVersionName : fr.
Lemma fr_decEnd : fr (decEnd cf ).
Proof. intros. unfold decEnd. fgo. Qed.
Hint Resolve fr_decEnd : fr.
Lemma fr_processDecAttrName : fr (processDecAttrName cf ).
Proof. intros. unfold processDecAttrName. fgo. Qed.
Hint Resolve fr_processDecAttrName : fr.
Lemma fr_step : forall ps, fr (step cf ps).
Proof. intros. unfold step. fgo. Qed.
Lemma fr_finishUp : fr (finishUp cf).
Proof. unfold finishUp. fgo. Qed.
Hint Resolve fr_step fr_finishUp : fr.
Lemma fr_parseLoop : forall n ps, fr (parseLoop cf n ps).
Proof. intros n. induction n; intros; cbn [parseLoop]; fgo. Qed.
Hint Resolve fr_parseLoop : fr.
Lemma fr_parse : fr (parse cf).
Proof. unfold parse. fgo. Qed.
End Frame.

(** The page exponents of a new parser *)
Lemma new_exps opts cf s : Forall go_value opts -> newVtdParser opts = Ok (cf, s) ->
  exps s = (vtdExp (c_docLength cf), l1Exp (c_shallow cf) (c_docLength cf), l2Exp (c_shallow cf) (c_docLength cf),
            l345Exp (c_shallow cf) (c_docLength cf), l345Exp (c_shallow cf) (c_docLength cf), l345Exp (c_shallow cf) (c_docLength cf)).
Proof.
  intros G N. unfold newVtdParser in N. destruct (k_doc (applyPOpts opts)) as [doc|]; [|discriminate N]. set (k := applyPOpts opts) in *. clearbody k.
  destruct (zlen doc =? 0); [discriminate N|]. destruct (k_offset k <? 0); [discriminate N|]. destruct (_ || _); [discriminate N|]. unfold parserInit in N.
  destruct (newIntBuf [6]) as [ns1|e|w]; [|discriminate N..]. cbn [obind] in N.
  destruct (newLongBuf [6]) as [ns2|e|w]; [|discriminate N..]. cbn [obind] in N.
  destruct (newUtf8Reader _ _ _); [|discriminate N..]. cbn [obind] in N.
  destruct (newLongBuf_ok _ (vtdExp_range (k_length k))) as (vtd & X & Rv). rewrite X in N. cbn [obind] in N.
  destruct (newLongBuf_ok _ (l1Exp_range (k_shallow k) (k_length k))) as (l1 & X1 & R1). rewrite X1 in N. cbn [obind] in N.
  destruct (newLongBuf_ok _ (l2Exp_range (k_shallow k) (k_length k))) as (l2 & X2 & R2). rewrite X2 in N. cbn [obind] in N.
  destruct (newLongBuf_ok _ (l345Exp_range (k_shallow k) (k_length k))) as (l3 & X3 & R3). rewrite X3 in N. cbn [obind] in N.
  injection N as <- <-. unfold exps, initState. cbn [c_docLength c_shallow]. psimp.
  rewrite (rp_exp _ _ _ Rv), (rp_exp _ _ _ R1), (rp_exp _ _ _ R2), (rp_exp _ _ _ R3). reflexivity.
Qed.
