(** The reserved namespace names: Parse never reports that a declaration names one
    of them, because the characters it compares carry their length in the upper bits. *)
From Verif Require Import Lib XmlChar Buffer BufferProofs Reader ParserState ParserPrim ParserProc ParserMain ParserWp ParserInv ParserOutcome PropertiesParse.

(** an error, or one it wraps, says that a declaration names a reserved URL *)
Definition says_reserved (msg : string) : bool := prefix "namespace declation cannot point to" msg.
Fixpoint reserved_error (e : goerr) : bool :=
  match e with
  | EParse msg _ => says_reserved msg
  | EInvalidArg _ _ (Some e') | EInternal _ (Some e') => reserved_error e'
  | _ => false
  end.
Definition unit_width (s : pst) : Prop := s_inc s = 1 \/ s_inc s = 2.
Definition okm {A} (r : res A) : Prop :=
  match r with ROk _ s' => unit_width s' | RErr e s' => unit_width s' /\ reserved_error e = false | _ => True end.
Definition pm {A} (m : M A) : Prop := forall s, unit_width s -> okm (m s).

Lemma pm_bind {A B} (m : M A) (k : A -> M B) : pm m -> (forall a, pm (k a)) -> pm (bind m k).
Proof. intros H K s S. unfold bind. specialize (H s S). destruct (m s) as [a s'|e s'|w|]; try exact H. exact (K a s' H). Qed.
Lemma pm_catch {A B} (m : M A) (h : goerr -> M B) (k : A -> M B) : pm m -> (forall e, reserved_error e = false -> pm (h e)) -> (forall a, pm (k a)) -> pm (catch m h k).
Proof.
  intros H E K s S. unfold catch. specialize (H s S). destruct (m s) as [a s'|e s'|w|]; try exact H; [exact (K a s' H)|]. destruct H as (H & R). exact (E e R s' H).
Qed.
Lemma pm_get {A} (f : pst -> A) : pm (get f). Proof. intros s S. exact S. Qed.
Lemma pm_ret {A} (a : A) : pm (ret a). Proof. intros s S. exact S. Qed.
Lemma pm_fail {A} e : reserved_error e = false -> pm (@fail A e). Proof. intros H s S. split; [exact S | exact H]. Qed.
Lemma pm_panics {A} w : pm (@panics A w). Proof. intros s S. exact I. Qed.
Lemma pm_diverge {A} : pm (@diverge A). Proof. intros s S. exact I. Qed.
Lemma pm_lift {A} (o : out A) : (forall e, o = Err e -> reserved_error e = false) -> pm (lift o).
Proof. intros H s S. unfold lift. destruct o; cbn; [exact S | split; [exact S | apply H; reflexivity] | exact I]. Qed.

Lemma er_char r r' e : rdGetChar r = (r', Err e) -> reserved_error e = false.
Proof. unfold rdGetChar. destruct (_ <=? _); [intros [= <- <-]; reflexivity|]. destruct (znth _ _); [|discriminate]. destruct (if rd_ascii r then _ else _); [discriminate | intros [= <- <-]; destruct (rd_ascii r); reflexivity]. Qed.
Lemma er_skip r c r' e : rdSkipChar r c = (r', Err e) -> reserved_error e = false.
Proof. unfold rdSkipChar. destruct (znth _ _); [|discriminate]. destruct (_ =? _); discriminate. Qed.
Lemma er_seq l : forall r r' e, rdSkipCharSeq r l = (r', Err e) -> reserved_error e = false.
Proof.
  induction l as [|c t IH]; intros r r' w; cbn [rdSkipCharSeq]; [discriminate|]. destruct (rdSkipChar r c) as [r1 [[|]|e|w1]] eqn:E; try discriminate; [apply IH|].
  intros [= <- <-]. exact (er_skip _ _ _ _ E).
Qed.
Lemma er_at r o e : rdGetCharAt r o = Err e -> reserved_error e = false.
Proof. unfold rdGetCharAt. destruct (znth _ _); discriminate. Qed.
Lemma er_long r o e : rdGetLongCharAt r o = Err e -> reserved_error e = false.
Proof. unfold rdGetLongCharAt. destruct (znth _ _); [|discriminate]. destruct (_ =? 13); [|discriminate]. destruct (znth _ _); [|discriminate]. destruct (_ =? _); discriminate. Qed.
Lemma er_ascii d o n e : newAsciiReader d o n = Err e -> reserved_error e = false.
Proof. unfold newAsciiReader. destruct d; [|intros [= <-]; reflexivity]. destruct (_ <? _); [intros [= <-]; reflexivity|]. destruct (_ || _); [intros [= <-]; reflexivity | discriminate]. Qed.
Lemma er_get {V} (b : pbuf V) i e : bget b i = Err e -> reserved_error e = false.
Proof. unfold bget. destruct (_ || _); [intros [= <-]; reflexivity|]. destruct (znth _ _); discriminate. Qed.
Lemma er_set {V} (b : pbuf V) i q e : bset b i q = Err e -> reserved_error e = false.
Proof. unfold bset. destruct (_ || _); [intros [= <-]; reflexivity|]. destruct (zupd _ _ _); discriminate. Qed.
Lemma er_append {V} (b b' : pbuf V) v e : bappend b v = (b', Err e) -> reserved_error e = false.
Proof.
  unfold bappend. destruct (_ <? _); [|discriminate]. destruct (bget b _) eqn:E; [|intros [= <- <-]; exact (er_get _ _ _ E) | discriminate].
  destruct (bset _ _ _) eqn:K; [discriminate | intros [= <- <-]; exact (er_set _ _ _ _ K) | discriminate].
Qed.
Lemma er_int b i e : intAt b i = Err e -> reserved_error e = false.
Proof. unfold intAt, bat. destruct (bget b _) eqn:E; [|intros [= <-]; exact (er_get _ _ _ E) | discriminate]. destruct (_ || _); [intros [= <-]; reflexivity|]. destruct (znth _ _); discriminate. Qed.
Lemma er_longAt b i e : longAt b i = Err e -> reserved_error e = false.
Proof. unfold longAt, bat. destruct (bget b _) eqn:E; [|intros [= <-]; reflexivity | discriminate]. destruct (_ || _); [intros [= <-]; reflexivity|]. destruct (znth _ _); discriminate. Qed.
Lemma er_lower b i e : lower32At b i = Err e -> reserved_error e = false.
Proof. unfold lower32At. destruct (longAt b i) eqn:E; [discriminate | intros [= <-]; exact (er_longAt _ _ _ E) | discriminate]. Qed.
Lemma er_upper b i e : upper32At b i = Err e -> reserved_error e = false.
Proof. unfold upper32At. destruct (longAt b i) eqn:E; [discriminate | intros [= <-]; exact (er_longAt _ _ _ E) | discriminate]. Qed.
Lemma pm_append g st v : (forall s b, unit_width s -> unit_width (st b s)) -> pm (appendTo g st v).
Proof. intros H s S. unfold appendTo. destruct (bappend (g s) v) as [b [a|e|w]] eqn:E; [exact (H s b S) | split; [exact (H s b S) | exact (er_append _ _ _ _ E)] | exact I]. Qed.

Create HintDb pm.
Ltac mstep :=
  match goal with
  | |- pm (bind _ _) => apply pm_bind; [|intros ?]
  | |- pm (catch _ _ _) => apply pm_catch; [|intros ? ?|intros ?]
  | |- pm (get _) => apply pm_get
  | |- pm (ret _) => apply pm_ret
  | |- pm (fail _) => apply pm_fail; solve [reflexivity | assumption]
  | |- pm (panics _) => apply pm_panics
  | |- pm (lift _) => apply pm_lift; solve [intros e; apply er_at | intros e; apply er_long | intros e; apply er_ascii | intros e; apply er_int | intros e; apply er_lower | intros e; apply er_upper]
  | |- pm diverge => apply pm_diverge
  | |- pm (appendTo _ _ _) => apply pm_append; intros ? ? S; exact S
  | |- pm (modify (set_inc 2)) => intros ? ?; right; reflexivity
  | |- pm (modify _) => solve [let s := fresh "s" in let S := fresh "S" in intros s S; exact S]
  | |- pm (parseErr _ (if ?b then _ else _)) => destruct b
  | |- pm (if ?b then _ else _) => destruct b
  | |- pm (match ?x with _ => _ end) => destruct x
  | |- pm (let _ := _ in _) => cbv zeta
  | |- pm ((if ?b then _ else _) _ _ _ _) => destruct b
  | |- pm (andM _ _) => unfold andM
  | |- pm (orM _ _) => unfold orM
  | |- pm (notM _) => unfold notM
  | |- says_reserved _ = false => solve [assumption | reflexivity]
  | H : _ |- _ => solve [apply H; (reflexivity || assumption)]
  | |- pm _ => solve [eauto 3 with pm]
  end.
Ltac mgo := repeat mstep.

Section Reserved.
Variable cf : cfg.
Ltac mraw := let s := fresh "s" in let S := fresh "S" in intros s S; cbv beta; repeat match goal with |- context [match ?x with _ => _ end] => lazymatch x with context [match _ with _ => _ end] => fail | _ => destruct x eqn:? end end;
  first [exact S | exact I | split; [exact S|]; first [reflexivity | eapply er_char; eassumption | eapply er_skip; eassumption | eapply er_seq; eassumption]].

Lemma pm_idx : forall i, pm (idx cf i).
Proof. intros. unfold idx. mraw. Qed.
Hint Resolve pm_idx : pm.
Lemma pm_setOffset : forall o, pm (setOffset o).
Proof. intros. unfold setOffset. mraw. Qed.
Hint Resolve pm_setOffset : pm.
Lemma pm_getChar : pm (getChar cf ).
Proof. intros. unfold getChar. mraw. Qed.
Hint Resolve pm_getChar : pm.
Lemma pm_skipChar : forall ch, pm (skipChar cf ch).
Proof. intros. unfold skipChar. mraw. Qed.
Hint Resolve pm_skipChar : pm.
Lemma pm_skipCharSeq : forall seq, pm (skipCharSeq cf seq).
Proof. intros. unfold skipCharSeq. mraw. Qed.
Hint Resolve pm_skipCharSeq : pm.
Lemma pm_skipCharSeqIgnoreCase : forall seq, pm (skipCharSeqIgnoreCase cf seq).
Proof. intros seq. induction seq; intros; cbn [skipCharSeqIgnoreCase]; mgo. Qed.
Hint Resolve pm_skipCharSeqIgnoreCase : pm.
Lemma pm_nextChar : pm (nextChar cf ).
Proof. intros. unfold nextChar. mgo. Qed.
Hint Resolve pm_nextChar : pm.
Lemma pm_nextCharAfterWsLoop : forall n, pm (nextCharAfterWsLoop cf n).
Proof. intros n. induction n; intros; cbn [nextCharAfterWsLoop]; mgo. Qed.
Hint Resolve pm_nextCharAfterWsLoop : pm.
Lemma pm_nextCharAfterWs : pm (nextCharAfterWs cf ).
Proof. intros. unfold nextCharAfterWs. mgo. Qed.
Hint Resolve pm_nextCharAfterWs : pm.
Lemma pm_writeVtd : forall typ offset len depth, pm (writeVtd typ offset len depth).
Proof. intros. unfold writeVtd. mgo. Qed.
Hint Resolve pm_writeVtd : pm.
Lemma pm_writeVtdL5 : forall typ offset len depth, pm (writeVtdL5 typ offset len depth).
Proof. intros. unfold writeVtdL5. mgo. Qed.
Hint Resolve pm_writeVtdL5 : pm.
Lemma pm_writeVtdTextLoop : forall n typ rOffset j depth, pm (writeVtdTextLoop n typ rOffset j depth).
Proof. intros n. induction n; intros; cbn [writeVtdTextLoop]; mgo. Qed.
Hint Resolve pm_writeVtdTextLoop : pm.
Lemma pm_writeVtdText : forall typ offset len depth, pm (writeVtdText typ offset len depth).
Proof. intros. unfold writeVtdText. mgo. Qed.
Hint Resolve pm_writeVtdText : pm.
Lemma pm_fmtCustomLine : forall offset, pm (fmtCustomLine cf offset).
Proof. intros. unfold fmtCustomLine. mraw. Qed.
Hint Resolve pm_fmtCustomLine : pm.
Lemma pm_fmtLine : pm (fmtLine cf ).
Proof. intros. unfold fmtLine. mgo. Qed.
Hint Resolve pm_fmtLine : pm.
Lemma pm_parseErr : forall A msg, says_reserved msg = false -> pm (@parseErr cf A msg).
Proof. intros. unfold parseErr. mgo. Qed.
Hint Resolve pm_parseErr : pm.
Lemma pm_parseErrAt : forall A msg offset, says_reserved msg = false -> pm (@parseErrAt cf A msg offset).
Proof. intros. unfold parseErrAt. mgo. Qed.
Hint Resolve pm_parseErrAt : pm.
Lemma pm_writeVtdWithLengthCheck : forall typ errMsg, says_reserved errMsg = false -> pm (writeVtdWithLengthCheck cf typ errMsg).
Proof. intros. unfold writeVtdWithLengthCheck. mgo. Qed.
Hint Resolve pm_writeVtdWithLengthCheck : pm.
Lemma pm_prevUtf8 : forall n o, pm (prevUtf8 cf n o).
Proof. intros n. induction n; intros; cbn [prevUtf8]; mgo. Qed.
Hint Resolve pm_prevUtf8 : pm.
Lemma pm_getPrevOffset : pm (getPrevOffset cf ).
Proof. intros. unfold getPrevOffset. mgo. Qed.
Hint Resolve pm_getPrevOffset : pm.
Lemma pm_matchAt : forall o pat, pm (matchAt cf o pat).
Proof. intros o pat. revert o. induction pat; intros; cbn [matchAt]; mgo. Qed.
Hint Resolve pm_matchAt : pm.
Lemma pm_decideEncoding : pm (decideEncoding cf ).
Proof. intros. unfold decideEncoding. mgo. Qed.
Hint Resolve pm_decideEncoding : pm.
Lemma pm_checkXmlPrefix : forall offset len checkLength, pm (checkXmlPrefix cf offset len checkLength).
Proof. intros. unfold checkXmlPrefix. mgo. Qed.
Hint Resolve pm_checkXmlPrefix : pm.
Lemma pm_checkXmlnsPrefix : forall offset len checkLength, pm (checkXmlnsPrefix cf offset len checkLength).
Proof. intros. unfold checkXmlnsPrefix. mgo. Qed.
Hint Resolve pm_checkXmlnsPrefix : pm.
Lemma pm_matchBytes : forall n a b j, pm (matchBytes cf n a b j).
Proof. intros n. induction n; intros; cbn [matchBytes]; mgo. Qed.
Hint Resolve pm_matchBytes : pm.
Lemma pm_qualifyElementLoop : forall n i preLen preOs, pm (qualifyElementLoop cf n i preLen preOs).
Proof. intros n. induction n; intros; cbn [qualifyElementLoop]; mgo. Qed.
Hint Resolve pm_qualifyElementLoop : pm.
Lemma pm_qualifyElement : pm (qualifyElement cf ).
Proof. intros. unfold qualifyElement. mgo. Qed.
Hint Resolve pm_qualifyElement : pm.
Lemma pm_recordWhiteSpace : pm (recordWhiteSpace ).
Proof. intros. unfold recordWhiteSpace. mgo. Qed.
Hint Resolve pm_recordWhiteSpace : pm.
Lemma pm_entSeq : forall seq, pm (entSeq cf seq).
Proof. intros seq. induction seq; intros; cbn [entSeq]; mgo. Qed.
Hint Resolve pm_entSeq : pm.
Lemma pm_entHex : forall n value, pm (entHex cf n value).
Proof. intros n. induction n; intros; cbn [entHex]; mgo. Qed.
Hint Resolve pm_entHex : pm.
Lemma pm_entDec : forall n c value, pm (entDec cf n c value).
Proof. intros n. induction n; intros; cbn [entDec]; mgo. Qed.
Hint Resolve pm_entDec : pm.
Lemma pm_entityIdentifier : pm (entityIdentifier cf ).
Proof. intros. unfold entityIdentifier. mgo. Qed.
Hint Resolve pm_entityIdentifier : pm.
Lemma pm_skipRbrLoop : forall n, pm (skipRbrLoop cf n).
Proof. intros n. induction n; intros; cbn [skipRbrLoop]; mgo. Qed.
Hint Resolve pm_skipRbrLoop : pm.
Lemma pm_skipRbr : pm (skipRbr cf ).
Proof. intros. unfold skipRbr. mgo. Qed.
Hint Resolve pm_skipRbr : pm.
Lemma pm_handleOtherTextChar : forall c, pm (handleOtherTextChar cf c).
Proof. intros. unfold handleOtherTextChar. mgo. Qed.
Hint Resolve pm_handleOtherTextChar : pm.
Lemma pm_validateSeqLoop : forall name seq, pm (validateSeqLoop cf name seq).
Proof. intros name seq. revert name. induction seq; intros; cbn [validateSeqLoop]; mgo. Qed.
Hint Resolve pm_validateSeqLoop : pm.
Lemma pm_validateSeq : forall name, pm (validateSeq cf name).
Proof. intros. unfold validateSeq. mgo. Qed.
Hint Resolve pm_validateSeq : pm.
Lemma pm_getNextProcessStateFromChar : forall c, pm (getNextProcessStateFromChar cf c).
Proof. intros. unfold getNextProcessStateFromChar. mgo. Qed.
Hint Resolve pm_getNextProcessStateFromChar : pm.
Lemma pm_writeTextHere : forall typ, pm (writeTextHere typ).
Proof. intros. unfold writeTextHere. mgo. Qed.
Hint Resolve pm_writeTextHere : pm.
Lemma pm_writeEmptyPiVal : pm (writeEmptyPiVal ).
Proof. intros. unfold writeEmptyPiVal. mgo. Qed.
Hint Resolve pm_writeEmptyPiVal : pm.
Lemma pm_markLast : pm (markLast ).
Proof. intros. unfold markLast. mgo. Qed.
Hint Resolve pm_markLast : pm.
Lemma pm_processElementTail : pm (processElementTail cf ).
Proof. intros. unfold processElementTail. mgo. Qed.
Hint Resolve pm_processElementTail : pm.
Lemma pm_startTagNameLoop : forall n, pm (startTagNameLoop cf n).
Proof. intros n. induction n; intros; cbn [startTagNameLoop]; mgo. Qed.
Hint Resolve pm_startTagNameLoop : pm.
Lemma pm_setTag : forall i v, pm (setTag i v).
Proof. intros. unfold setTag. mraw. Qed.
Hint Resolve pm_setTag : pm.
Lemma pm_startTagNs : pm (startTagNs cf ).
Proof. intros. unfold startTagNs. mgo. Qed.
Hint Resolve pm_startTagNs : pm.
Lemma pm_writeStartTag : pm (writeStartTag cf ).
Proof. intros. unfold writeStartTag. mgo. Qed.
Hint Resolve pm_writeStartTag : pm.
Lemma pm_appendNs1 : pm (appendNs1 ).
Proof. intros. unfold appendNs1. mgo. Qed.
Hint Resolve pm_appendNs1 : pm.
Lemma pm_startTagClose : pm (startTagClose cf ).
Proof. intros. unfold startTagClose. mgo. Qed.
Hint Resolve pm_startTagClose : pm.
Lemma pm_processStartTag : pm (processStartTag cf ).
Proof. intros. unfold processStartTag. mgo. Qed.
Hint Resolve pm_processStartTag : pm.
Lemma pm_endTagCompare : forall n a b, pm (endTagCompare cf n a b).
Proof. intros n. induction n; intros; cbn [endTagCompare]; mgo. Qed.
Hint Resolve pm_endTagCompare : pm.
Lemma pm_processEndTag : pm (processEndTag cf ).
Proof. intros. unfold processEndTag. mgo. Qed.
Hint Resolve pm_processEndTag : pm.
Lemma pm_processExSeen : pm (processExSeen cf ).
Proof. intros. unfold processExSeen. mgo. Qed.
Hint Resolve pm_processExSeen : pm.
Lemma pm_isXmlTarget : forall c, pm (isXmlTarget cf c).
Proof. intros. unfold isXmlTarget. mgo. Qed.
Hint Resolve pm_isXmlTarget : pm.
Lemma pm_processQmSeen : pm (processQmSeen cf ).
Proof. intros. unfold processQmSeen. mgo. Qed.
Hint Resolve pm_processQmSeen : pm.
Lemma pm_processLtSeen : pm (processLtSeen cf ).
Proof. intros. unfold processLtSeen. mgo. Qed.
Hint Resolve pm_processLtSeen : pm.
Lemma pm_textLoop : forall n, pm (textLoop cf n).
Proof. intros n. induction n; intros; cbn [textLoop]; mgo. Qed.
Hint Resolve pm_textLoop : pm.
Lemma pm_processText : pm (processText cf ).
Proof. intros. unfold processText. mgo. Qed.
Hint Resolve pm_processText : pm.
Lemma pm_cdataLoop : forall n, pm (cdataLoop cf n).
Proof. intros n. induction n; intros; cbn [cdataLoop]; mgo. Qed.
Hint Resolve pm_cdataLoop : pm.
Lemma pm_processCdata : pm (processCdata cf ).
Proof. intros. unfold processCdata. mgo. Qed.
Hint Resolve pm_processCdata : pm.
Lemma pm_commentLoop : forall n, pm (commentLoop cf n).
Proof. intros n. induction n; intros; cbn [commentLoop]; mgo. Qed.
Hint Resolve pm_commentLoop : pm.
Lemma pm_processStartComment : pm (processStartComment cf ).
Proof. intros. unfold processStartComment. mgo. Qed.
Hint Resolve pm_processStartComment : pm.
Lemma pm_processEndComment : pm (processEndComment cf ).
Proof. intros. unfold processEndComment. mgo. Qed.
Hint Resolve pm_processEndComment : pm.
Lemma pm_processDocEnd : pm (processDocEnd cf ).
Proof. intros. unfold processDocEnd. mgo. Qed.
Hint Resolve pm_processDocEnd : pm.
Lemma pm_skipXmlDecl : pm (skipXmlDecl cf ).
Proof. intros. unfold skipXmlDecl. mgo. Qed.
Hint Resolve pm_skipXmlDecl : pm.
Lemma pm_skipOneSpace : pm (skipOneSpace cf ).
Proof. intros. unfold skipOneSpace. mgo. Qed.
Hint Resolve pm_skipOneSpace : pm.
Lemma pm_processDocStart : pm (processDocStart cf ).
Proof. intros. unfold processDocStart. mgo. Qed.
Hint Resolve pm_processDocStart : pm.
Lemma pm_docTypeLoop : forall n z, pm (docTypeLoop cf n z).
Proof. intros n. induction n; intros; cbn [docTypeLoop]; mgo. Qed.
Hint Resolve pm_docTypeLoop : pm.
Lemma pm_processDocType : pm (processDocType cf ).
Proof. intros. unfold processDocType. mgo. Qed.
Hint Resolve pm_processDocType : pm.
Lemma pm_piNameLoop : forall n, pm (piNameLoop cf n).
Proof. intros n. induction n; intros; cbn [piNameLoop]; mgo. Qed.
Hint Resolve pm_piNameLoop : pm.
Lemma pm_processPiTag : pm (processPiTag cf ).
Proof. intros. unfold processPiTag. mgo. Qed.
Hint Resolve pm_processPiTag : pm.
Lemma pm_piValLoop : forall n, pm (piValLoop cf n).
Proof. intros n. induction n; intros; cbn [piValLoop]; mgo. Qed.
Hint Resolve pm_piValLoop : pm.
Lemma pm_processPiVal : pm (processPiVal cf ).
Proof. intros. unfold processPiVal. mgo. Qed.
Hint Resolve pm_processPiVal : pm.
Lemma pm_piEndNameLoop : forall n, pm (piEndNameLoop cf n).
Proof. intros n. induction n; intros; cbn [piEndNameLoop]; mgo. Qed.
Hint Resolve pm_piEndNameLoop : pm.
Lemma pm_piEndValLoop : forall n, pm (piEndValLoop cf n).
Proof. intros n. induction n; intros; cbn [piEndValLoop]; mgo. Qed.
Hint Resolve pm_piEndValLoop : pm.
Lemma pm_processPiEnd : pm (processPiEnd cf ).
Proof. intros. unfold processPiEnd. mgo. Qed.
Hint Resolve pm_processPiEnd : pm.
Lemma pm_attrNameLoop : forall n, pm (attrNameLoop cf n).
Proof. intros n. induction n; intros; cbn [attrNameLoop]; mgo. Qed.
Hint Resolve pm_attrNameLoop : pm.
Lemma pm_attrUniqueLoop : forall n i, pm (attrUniqueLoop cf n i).
Proof. intros n. induction n; intros; cbn [attrUniqueLoop]; mgo. Qed.
Hint Resolve pm_attrUniqueLoop : pm.
Lemma pm_storeAttrName : pm (storeAttrName ).
Proof. intros. unfold storeAttrName. mraw. Qed.
Hint Resolve pm_storeAttrName : pm.
Lemma pm_storePrefName : pm (storePrefName ).
Proof. intros. unfold storePrefName. mraw. Qed.
Hint Resolve pm_storePrefName : pm.
Lemma pm_checkAttrUniqueness : pm (checkAttrUniqueness cf ).
Proof. intros. unfold checkAttrUniqueness. mgo. Qed.
Hint Resolve pm_checkAttrUniqueness : pm.
Lemma pm_attrNameXmlns : pm (attrNameXmlns cf ).
Proof. intros. unfold attrNameXmlns. mgo. Qed.
Hint Resolve pm_attrNameXmlns : pm.
Lemma pm_attrNameNsChecks : pm (attrNameNsChecks cf ).
Proof. intros. unfold attrNameNsChecks. mgo. Qed.
Hint Resolve pm_attrNameNsChecks : pm.
Lemma pm_writeAttrName : pm (writeAttrName cf ).
Proof. intros. unfold writeAttrName. mgo. Qed.
Hint Resolve pm_writeAttrName : pm.
Lemma pm_processAttrName : pm (processAttrName cf ).
Proof. intros. unfold processAttrName. mgo. Qed.
Hint Resolve pm_processAttrName : pm.
Lemma pm_getCharUnit : forall offset, pm (getCharUnit cf offset).
Proof. intros. unfold getCharUnit. mgo. Qed.
Hint Resolve pm_getCharUnit : pm.
Lemma pm_resolvedSeq : forall seq offset inc, pm (resolvedSeq cf seq offset inc).
Proof. intros seq. induction seq; intros; cbn [resolvedSeq]; mgo. Qed.
Hint Resolve pm_resolvedSeq : pm.
Lemma pm_resolvedHex : forall n offset inc val, pm (resolvedHex cf n offset inc val).
Proof. intros n. induction n; intros; cbn [resolvedHex]; mgo. Qed.
Hint Resolve pm_resolvedHex : pm.
Lemma pm_resolvedDec : forall n offset inc val, pm (resolvedDec cf n offset inc val).
Proof. intros n. induction n; intros; cbn [resolvedDec]; mgo. Qed.
Hint Resolve pm_resolvedDec : pm.
Lemma pm_getCharResolved : forall offset, pm (getCharResolved cf offset).
Proof. intros. unfold getCharResolved. mgo. Qed.
Hint Resolve pm_getCharResolved : pm.
Lemma pm_qualifyAttrLoop : forall n i preLen preOs, pm (qualifyAttrLoop cf n i preLen preOs).
Proof. intros n. induction n; intros; cbn [qualifyAttrLoop]; mgo. Qed.
Hint Resolve pm_qualifyAttrLoop : pm.
Lemma pm_prefNameAt : forall j, pm (prefNameAt j).
Proof. intros. unfold prefNameAt. mraw. Qed.
Hint Resolve pm_prefNameAt : pm.
Lemma pm_prefUrlAt : forall j, pm (prefUrlAt j).
Proof. intros. unfold prefUrlAt. mraw. Qed.
Hint Resolve pm_prefUrlAt : pm.
Lemma pm_qualifyAttrsLoop : forall n j, pm (qualifyAttrsLoop cf n j).
Proof. intros n. induction n; intros; cbn [qualifyAttrsLoop]; mgo. Qed.
Hint Resolve pm_qualifyAttrsLoop : pm.
Lemma pm_qualifyAttributes : pm (qualifyAttributes cf ).
Proof. intros. unfold qualifyAttributes. mgo. Qed.
Hint Resolve pm_qualifyAttributes : pm.
Lemma pm_matchUrlLoop : forall n ao al bo bl, pm (matchUrlLoop cf n ao al bo bl).
Proof. intros n. induction n; intros; cbn [matchUrlLoop]; mgo. Qed.
Hint Resolve pm_matchUrlLoop : pm.
Lemma pm_matchUrl : forall ao al bo bl, pm (matchUrl cf ao al bo bl).
Proof. intros. unfold matchUrl. mgo. Qed.
Hint Resolve pm_matchUrl : pm.
Lemma pm_urlOf : forall i, pm (urlOf i).
Proof. intros. unfold urlOf. mgo. Qed.
Hint Resolve pm_urlOf : pm.
Lemma pm_qualUniqueInner : forall n j offset postLen urlA, pm (qualUniqueInner cf n j offset postLen urlA).
Proof. intros n. induction n; intros; cbn [qualUniqueInner]; mgo. Qed.
Hint Resolve pm_qualUniqueInner : pm.
Lemma pm_qualUniqueOuter : forall n i total, pm (qualUniqueOuter cf n i total).
Proof. intros n. induction n; intros; cbn [qualUniqueOuter]; mgo. Qed.
Hint Resolve pm_qualUniqueOuter : pm.
Lemma pm_checkQualifiedAttributeUniqueness : pm (checkQualifiedAttributeUniqueness cf ).
Proof. intros. unfold checkQualifiedAttributeUniqueness. mgo. Qed.
Hint Resolve pm_checkQualifiedAttributeUniqueness : pm.
Lemma pm_attrValLoop : forall n q, pm (attrValLoop cf n q).
Proof. intros n. induction n; intros; cbn [attrValLoop]; mgo. Qed.
Hint Resolve pm_attrValLoop : pm.
Lemma pm_writeDec : forall typ len, pm (writeDec typ len).
Proof. intros. unfold writeDec. mgo. Qed.
Hint Resolve pm_writeDec : pm.
Lemma pm_skipEitherCase : forall l, pm (skipEitherCase cf l).
Proof. intros. unfold skipEitherCase. mgo. Qed.
Hint Resolve pm_skipEitherCase : pm.
Lemma pm_cannotSwitch : pm (cannotSwitch ).
Proof. intros. unfold cannotSwitch. mgo. Qed.
Hint Resolve pm_cannotSwitch : pm.
Lemma pm_switchToAscii : pm (switchToAscii cf ).
Proof. intros. unfold switchToAscii. mgo. Qed.
Hint Resolve pm_switchToAscii : pm.
Lemma pm_checkAsciiEncoding : pm (checkAsciiEncoding cf ).
Proof. intros. unfold checkAsciiEncoding. mgo. Qed.
Hint Resolve pm_checkAsciiEncoding : pm.
Lemma pm_checkUsAsciiEncoding : pm (checkUsAsciiEncoding cf ).
Proof. intros. unfold checkUsAsciiEncoding. mgo. Qed.
Hint Resolve pm_checkUsAsciiEncoding : pm.
Lemma pm_checkIsoEncoding : pm (checkIsoEncoding cf ).
Proof. intros. unfold checkIsoEncoding. mgo. Qed.
Hint Resolve pm_checkIsoEncoding : pm.
Lemma pm_checkUtfEncoding : pm (checkUtfEncoding cf ).
Proof. intros. unfold checkUtfEncoding. mgo. Qed.
Hint Resolve pm_checkUtfEncoding : pm.
Lemma pm_checkWinEncoding : forall rest len msg, says_reserved msg = false -> pm (checkWinEncoding cf rest len msg).
Proof. intros. unfold checkWinEncoding. mgo. Qed.
Hint Resolve pm_checkWinEncoding : pm.
Lemma pm_checkCpEncoding : pm (checkCpEncoding cf ).
Proof. intros. unfold checkCpEncoding. mgo. Qed.
Hint Resolve pm_checkCpEncoding : pm.
Lemma pm_checkWindowsEncoding : pm (checkWindowsEncoding cf ).
Proof. intros. unfold checkWindowsEncoding. mgo. Qed.
Hint Resolve pm_checkWindowsEncoding : pm.
Lemma pm_processDecEncodingAttr : pm (processDecEncodingAttr cf ).
Proof. intros. unfold processDecEncodingAttr. mgo. Qed.
Hint Resolve pm_processDecEncodingAttr : pm.
Lemma pm_processDecStandaloneAttr : pm (processDecStandaloneAttr cf ).
Proof. intros. unfold processDecStandaloneAttr. mgo. Qed.
Hint Resolve pm_processDecStandaloneAttr : pm.
Lemma pm_decVersionName : pm (decVersionName cf ).
Proof. intros. unfold decVersionName. mgo. Qed.
Hint Resolve pm_decVersionName : pm.
Lemma pm_decEnd : pm (decEnd cf ).
Proof. intros. unfold decEnd. mgo. Qed.
Hint Resolve pm_decEnd : pm.
Lemma pm_processDecAttrName : pm (processDecAttrName cf ).
Proof. intros. unfold processDecAttrName. mgo. Qed.
Hint Resolve pm_processDecAttrName : pm.

(** ** The characters compared *)
(** what is known of the value a function returns *)
Definition gives {A} (m : M A) (Q : A -> Prop) : Prop :=
  forall s, unit_width s -> match m s with ROk a s' => unit_width s' /\ Q a | RErr e s' => unit_width s' /\ reserved_error e = false | _ => True end.
Lemma gives_any {A} (m : M A) : pm m -> gives m (fun _ => True).
Proof. intros H s S. specialize (H s S). destruct (m s); unfold okm in H; auto. Qed.
Lemma gives_ret {A} (a : A) (Q : A -> Prop) : Q a -> gives (ret a) Q.
Proof. intros H s S. split; assumption. Qed.
Lemma gives_bind {A B} (m : M A) (k : A -> M B) P Q : gives m P -> (forall a, P a -> gives (k a) Q) -> gives (bind m k) Q.
Proof. intros H K s S. unfold bind. specialize (H s S). destruct (m s) as [a s'|e s'|w|]; try exact H. destruct H as (H & Pa). exact (K a Pa s' H). Qed.
Lemma gives_pm {A B} (m : M A) (k : A -> M B) Q : pm m -> (forall a, gives (k a) Q) -> gives (bind m k) Q.
Proof. intros H K. apply (gives_bind _ _ (fun _ => True)); [apply gives_any, H | intros a _; apply K]. Qed.
Lemma gives_inc {B} (k : Z -> M B) Q : (forall d, d = 1 \/ d = 2 -> gives (k d) Q) -> gives (d <- get s_inc ;; k d) Q.
Proof. intros K s S. exact (K _ S s S). Qed.
Lemma gives_state {B} (k : pst -> M B) Q : (forall s, unit_width s -> gives (k s) Q) -> gives (s <- get (fun s => s) ;; k s) Q.
Proof. intros K s S. exact (K s S s S). Qed.
Lemma pm_gives {A B} (m : M A) (k : A -> M B) P : gives m P -> (forall a, P a -> pm (k a)) -> pm (bind m k).
Proof. intros H K s S. unfold bind. specialize (H s S). destruct (m s) as [a s'|e s'|w|]; try exact H. destruct H as (H & Pa). exact (K a Pa s' H). Qed.

Lemma gives_hex n : forall o i v, gives (resolvedHex cf n o i v) (fun r => i < snd r <= i + 2 * Z.of_nat n + 2).
Proof.
  induction n as [|n IH]; intros o i v; cbn [resolvedHex]; [intros s S; exact I|]. apply gives_inc. intros d Hd. cbv zeta.
  apply gives_pm; [apply pm_getCharUnit|]. intros c.
  assert (W : forall o' v', gives (resolvedHex cf n o' (i + d) v') (fun r => i < snd r <= i + 2 * Z.of_nat (S n) + 2)).
  { intros o' v' s S. specialize (IH o' (i + d) v' s S). destruct (resolvedHex cf n o' (i + d) v' s); auto. split; [apply IH|]. destruct IH as (_ & IH). lia. }
  repeat match goal with |- gives (if ?c then _ else _) _ => destruct c end; try apply W. apply gives_ret. cbn [snd]. lia.
Qed.
Lemma gives_dec n : forall o i v, gives (resolvedDec cf n o i v) (fun r => i < snd r <= i + 2 * Z.of_nat n + 2).
Proof.
  induction n as [|n IH]; intros o i v; cbn [resolvedDec]; [intros s S; exact I|]. apply gives_inc. intros d Hd.
  apply gives_pm; [apply pm_getCharUnit|]. intros c. cbv zeta.
  assert (W : forall o' v', gives (resolvedDec cf n o' (i + d) v') (fun r => i < snd r <= i + 2 * Z.of_nat (S n) + 2)).
  { intros o' v' s S. specialize (IH o' (i + d) v' s S). destruct (resolvedDec cf n o' (i + d) v' s); auto. split; [apply IH|]. destruct IH as (_ & IH). lia. }
  repeat match goal with |- gives (if ?c then _ else _) _ => destruct c end; try apply W. apply gives_ret. cbn [snd]. lia.
Qed.
(** no plain character *)
Definition wide (x : Z) : Prop := x < 0 \/ 2^32 <= x.
Lemma lor_wide v i : 0 < i < 2^32 -> wide (Z.lor v (shl64 i 32)).
Proof.
  intros Hi. unfold wide. assert (Y : shl64 i 32 < 0 \/ 2^32 <= shl64 i 32).
  { unfold shl64. cbn [Z.leb Z.compare Pos.compare Pos.compare_cont]. rewrite ?Z.shiftl_mul_pow2 by lia. unfold wrap64. lia. }
  destruct (Z_lt_ge_dec v 0) as [Nv|Nv]; [left; apply Z.lor_neg; tauto|]. destruct Y as [Y|Y]; [left; apply Z.lor_neg; tauto|]. right.
  assert (X : 0 < Z.lor v (shl64 i 32)).
  { assert (0 <= Z.lor v (shl64 i 32)) by (apply Z.lor_nonneg; lia). destruct (Z.eq_dec (Z.lor v (shl64 i 32)) 0) as [E|]; [|lia]. apply Z.lor_eq_0_iff in E. lia. }
  apply Z.log2_le_pow2; [exact X|]. rewrite Z.log2_lor by lia. assert (32 <= Z.log2 (shl64 i 32)) by (apply Z.log2_le_pow2; lia). lia.
Qed.
Lemma ok_inj {A} (a b : A) : Ok a = Ok b -> a = b.
Proof. intros H. exact (match H in _ = r return match r with Ok b => a = b | _ => True end with eq_refl => eq_refl end). Qed.
Lemma long_wide r o x : rdGetLongCharAt r o = Ok x -> wide x.
Proof.
  unfold rdGetLongCharAt. destruct (znth (rd_doc r) o) as [b|]; [|intros X; discriminate X].
  assert (W : wide (Z.lor (Z.shiftl 1 32) (b2z b))) by (rewrite Z.lor_comm; apply (lor_wide (b2z b) 1); lia).
  revert W. generalize (Z.lor (Z.shiftl 1 32) (b2z b)). intros y W. assert (W2 : wide (Z.lor (Z.shiftl 2 32) 10)) by (rewrite Z.lor_comm; apply (lor_wide 10 2); lia).
  revert W2. generalize (Z.lor (Z.shiftl 2 32) 10). intros z W2.
  destruct (b2z b =? 13); [|intros X; apply ok_inj in X; subst; exact W]. destruct (znth _ _) as [b2|]; [|intros X; discriminate X].
  destruct (_ =? 10); intros X; apply ok_inj in X; subst; assumption.
Qed.
Lemma gives_resolved o : zlen (c_doc cf) < 2^30 -> gives (getCharResolved cf o) wide.
Proof.
  intros Hz. unfold getCharResolved. apply gives_state. intros s0 S0. apply (gives_bind _ _ wide).
  { intros s S. unfold lift. destruct (rdGetLongCharAt _ _) eqn:E; [split; [exact S | exact (long_wide _ _ _ E)] | split; [exact S | exact (er_long _ _ _ E)] | exact I]. }
  intros c64 W. destruct (negb _); [apply gives_ret, W|]. cbv zeta. apply gives_pm; [apply pm_getCharUnit|]. intros c.
  assert (F : Z.of_nat (fuel cf) < 2^30 + 2) by (unfold fuel, zlen in *; lia).
  assert (I0 : shl64 2 (s_inc s0 - 1) = 2 \/ shl64 2 (s_inc s0 - 1) = 4) by (destruct S0 as [S0|S0]; rewrite S0; vm_compute; auto).
  apply (gives_bind _ _ (fun r => 0 < snd r < 2^32)); [|intros [v i] H; apply gives_ret; apply lor_wide, H].
  assert (K : forall m : M (Z * Z), gives m (fun r => shl64 2 (s_inc s0 - 1) < snd r <= shl64 2 (s_inc s0 - 1) + 2 * Z.of_nat (fuel cf) + 2) -> gives m (fun r => 0 < snd r < 2^32)).
  { intros m H s S. specialize (H s S). destruct (m s); auto. destruct H as (H & R). split; [exact H | lia]. }
  repeat match goal with
  | |- gives (if ?c then _ else _) _ => destruct c
  | |- gives (bind (getCharUnit _ _) _) _ => apply gives_pm; [apply pm_getCharUnit | intros ?]
  | |- gives (bind (getChar _) _) _ => apply gives_pm; [apply pm_getChar | intros ?]
  | |- gives (bind (resolvedSeq _ _ _ _) _) _ => apply gives_pm; [apply pm_resolvedSeq | intros ?]
  | |- gives (resolvedHex _ _ _ _ _) _ => apply K, gives_hex
  | |- gives (resolvedDec _ _ _ _ _) _ => apply K, gives_dec
  | |- gives (ret _) _ => apply gives_ret; cbn [snd]; lia
  end.
  all: apply gives_ret; cbn [snd]; destruct (_ <? _); lia.
Qed.
Lemma gives_urlLoop c t o g : zlen (c_doc cf) < 2^30 -> 0 <= c < 2^32 -> o < g -> gives (nsUrlLoop cf (c :: t) o g) (fun r => r = None).
Proof.
  intros Hz Hc Ho. cbn [nsUrlLoop]. destruct (Z.ltb_spec o g); [|lia]. apply (gives_bind _ _ wide); [apply gives_resolved, Hz|]. intros x W.
  destruct (Z.eqb_spec c x); [unfold wide in W; lia|]. apply gives_ret. reflexivity.
Qed.
Lemma gives_identify : zlen (c_doc cf) < 2^30 -> gives (identifyNsUrl cf) (fun u => u = NsDefault).
Proof.
  intros Hz. unfold identifyNsUrl. apply gives_state. intros s0 S0. cbv zeta. destruct (s_len1 s0 <? 29) eqn:E; [apply gives_ret; reflexivity|]. cbn [orb].
  match goal with |- gives (if ?c then _ else _) _ => destruct c end; [apply gives_ret; reflexivity|].
  apply (gives_bind _ _ (fun r => r = None)); [|intros r ->; apply gives_ret; reflexivity].
  change (firstn 18 URL2) with (104 :: tl (firstn 18 URL2)). apply gives_urlLoop; [exact Hz | lia | lia].
Qed.
Lemma pm_attrValNs : zlen (c_doc cf) < 2^30 -> pm (attrValNs cf).
Proof.
  intros Hz. unfold attrValNs. apply pm_bind; [apply pm_get|]. intros s0. destruct (_ && _); [|mgo]. destruct (_ && _); [mgo|].
  apply (pm_gives _ _ _ (gives_identify Hz)). intros u ->. mgo.
Qed.
Lemma pm_attrValClose : pm (attrValClose cf).
Proof. unfold attrValClose. mgo. Qed.
Lemma pm_processAttrVal : zlen (c_doc cf) < 2^30 -> pm (processAttrVal cf).
Proof. intros Hz. pose proof (pm_attrValNs Hz). pose proof pm_attrValClose. unfold processAttrVal. mgo. Qed.
Lemma pm_step ps : zlen (c_doc cf) < 2^30 -> pm (step cf ps).
Proof. intros Hz. destruct ps; cbn [step]; try solve [eauto 3 with pm]. apply pm_processAttrVal, Hz. Qed.
Lemma pm_finishUp : pm (finishUp cf).
Proof. unfold finishUp. mgo. Qed.
Lemma pm_parseLoop n : zlen (c_doc cf) < 2^30 -> forall ps, pm (parseLoop cf n ps).
Proof.
  intros Hz. induction n as [|n IH]; intros ps; cbn [parseLoop]; [apply pm_diverge|].
  apply pm_catch; [apply pm_step, Hz | | exact IH]. intros e R. destruct (_ && _); [|apply pm_fail, R].
  apply pm_catch; [apply pm_finishUp | | intros ?; apply pm_ret]. intros e' R'. apply pm_fail. exact R'.
Qed.
Lemma pm_parse : zlen (c_doc cf) < 2^30 -> pm (parse cf).
Proof.
  intros Hz. unfold parse. apply pm_bind; [apply pm_decideEncoding|]. intros []. apply pm_bind; [apply pm_get|]. intros d.
  apply pm_bind; [apply pm_writeVtd|]. intros []. apply pm_parseLoop, Hz.
Qed.
End Reserved.

Theorem reserved_never opts doc off len e s : Forall go_value opts -> window_of opts = (Some doc, off, len) -> zlen doc < 2^30 ->
  runParser opts = Rejected e s -> reserved_error e = false.
Proof.
  intros Hg W Hz R. unfold runParser in R. pose proof (new_spec opts Hg) as V. destruct (newVtdParser opts) as [[cf s0]|e0|w0]; [|discriminate R..].
  destruct V as (V & _ & _ & _ & _ & _ & F). rewrite W in V. destruct V as (V & _). injection V as V.
  assert (U : unit_width s0) by (destruct F as (? & ? & ? & ? & ? & ? & ? & ? & ? & -> & _); left; reflexivity).
  pose proof (pm_parse cf ltac:(congruence) s0 U) as H. destruct (parse cf s0); try discriminate R. injection R as <- <-. exact (proj2 H).
Qed.
