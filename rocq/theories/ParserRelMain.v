(** The state functions and the main loop in two related runs. *)
From Verif Require Import Lib XmlChar Buffer BufferProofs Reader ParserState ParserPrim ParserProc ParserMain ParserWp ParserRel.

Ltac rel_side := first [eassumption | apply fle_refl | eapply fle_fuel; eassumption | eapply fle_S; eassumption].
Ltac rel1 HR HB :=
  lazymatch goal with
  | |- sim _ _ (bind (get _) _) (bind (get _) _) => apply (sim_get _ _ HR); intros ? ? ?; cbv beta
  | |- sim _ _ (bind (startTagNs _) _) (bind (startTagNs _) _) => fail
  | |- sim _ _ (bind _ _) (bind _ _) => apply (sim_bind _ _ HB); [|intros ?; cbv beta]
  | |- sim _ _ (ret _) (ret _) => apply sim_ret; reflexivity
  | |- sim _ _ (fail _) (fail _) => apply sim_fail; reflexivity
  | |- sim _ _ (panics _) (panics _) => apply sim_panics; reflexivity
  | |- sim _ _ diverge diverge => apply sim_diverge
  | |- sim _ _ (modify _) (modify _) => apply sim_modify; solve [rel_setter HR]
  | |- sim _ _ (if _ then _ else _) (if _ then _ else _) => apply sim_if; [reflexivity| |]
  | |- sim _ _ (lift _) (lift _) => apply sim_lift; reflexivity
  | |- sim _ _ (andM _ _) (andM _ _) => apply (sim_andM _ _ HB)
  | |- sim _ _ (orM _ _) (orM _ _) => apply (sim_orM _ _ HB)
  | |- sim _ _ (let x := ?v in _) (let y := ?w in _) => change v with w; cbv zeta
  | |- sim _ _ (appendTo s_vtd set_vtd _) _ => apply (sim_vtd _ _ HR); reflexivity
  | |- sim _ _ (match ?x with Some _ => _ | None => _ end) (match ?y with Some _ => _ | None => _ end) => change x with y; destruct y
  | |- sim _ _ (let (_, _) := ?x in _) (let (_, _) := ?y in _) => change x with y; destruct y
  | |- sim _ _ _ _ => match goal with IH : forall _, _ |- _ => solve [apply IH; rel_side] | IH : sim _ _ _ _ |- _ => exact IH end
  end.
Ltac rels HR HB := repeat first [ solve [auto 1 with sim nocore] | rel1 HR HB ].

Lemma prims_sub cf1 cf2 R (e0 e1 : way) mono : (forall A r1 r2, e0 A r1 r2 -> e1 A r1 r2) ->
  prims cf1 cf2 R e0 mono -> prims cf1 cf2 R e1 mono.
Proof.
  intros S H. destruct H. constructor; auto; intros; eapply sim_sub; eauto.
Qed.

(** What a pair of runs must satisfy for the functions that depend on the
    configuration. *)
Record special (cf1 cf2 : cfg) (R : pst -> pst -> Prop) (esc : way) : Prop := mkSpecial {
  sp_name : sim R esc (startTagNameLoop cf1 (fuel cf1)) (startTagNameLoop cf2 (fuel cf2));
  sp_write : sim R esc (writeStartTag cf1) (writeStartTag cf2);
  sp_ns : forall k1 k2 : M pstate, sim R esc k1 k2 ->
     sim R esc (startTagNs cf1 ;;; modify (set_len2 0) ;;; k1) (startTagNs cf2 ;;; modify (set_len2 0) ;;; k2);
  sp_close : let m cf := if c_ns cf then appendNs1 ;;; r <- get s_rec ;; (if r =? 0 then ret tt else qualifyElement cf) else ret tt in
     sim R esc (m cf1) (m cf2);
  sp_unique : sim R esc (checkAttrUniqueness cf1) (checkAttrUniqueness cf2);
  sp_checks : sim R esc (attrNameNsChecks cf1) (attrNameNsChecks cf2);
  sp_attr : sim R esc (writeAttrName cf1) (writeAttrName cf2);
  sp_val : sim R esc (attrValNs cf1) (attrValNs cf2);
  sp_vclose : let m cf :=
       if c_ns cf then
         appendNs1 ;;;
         n <- get s_prefCount ;;
         (if 0 <? n then qualifyAttributes cf else ret tt) ;;;
         (if 0 <? n then checkQualifiedAttributeUniqueness cf else ret tt) ;;;
         r <- get s_rec ;;
         (if r =? 0 then ret tt else qualifyElement cf) ;;;
         modify (set_prefCount 0)
       else ret tt in
     sim R esc (m cf1) (m cf2);
  sp_ascii : sim R esc (checkAsciiEncoding cf1) (checkAsciiEncoding cf2);
  sp_usascii : sim R esc (checkUsAsciiEncoding cf1) (checkUsAsciiEncoding cf2) }.

(** A way out is kept by a catch that only wraps the error. *)
Definition errs (esc0 esc : way) : Prop := forall A B (r1 r2 : res A) (f : goerr -> goerr) (k1 k2 : A -> M B),
  esc0 A r1 r2 -> esc B (catchr r1 (fun e => fail (f e)) k1) (catchr r2 (fun e => fail (f e)) k2).
Lemma escapes_errs (e0 e1 : way) : escapes e0 -> (forall A r1 r2, e0 A r1 r2 -> e1 A r1 r2) -> errs e0 e1.
Proof. intros H HI A B r1 r2 f k1 k2 K. apply HI, H, K. Qed.

Section Steps.
Variables cf1 cf2 : cfg.
Variable R : pst -> pst -> Prop.
Variables esc0 esc : way.
Variable mono : bool.
Hypothesis HR : frame R.
Hypothesis HB0 : leaves esc0.
Hypothesis HE0 : errs esc0 esc.
Hypothesis HB : leaves esc.
Hypothesis HI : forall A r1 r2, esc0 A r1 r2 -> esc A r1 r2.
Hypothesis HP0 : prims cf1 cf2 R esc0 mono.
Hypothesis HS : special cf1 cf2 R esc.

Let HP : prims cf1 cf2 R esc mono := prims_sub _ _ _ _ _ _ HI HP0.
Ltac rel := rels HR HB.

Local Hint Extern 0 (sim _ _ (setOffset _) _) => eapply sim_setOffset; rel_side : sim.
Local Hint Extern 0 (sim _ _ (skipCharSeqIgnoreCase _ _) _) => eapply sim_skipCharSeqIgnoreCase; rel_side : sim.
Local Hint Extern 0 (sim _ _ (nextChar _) _) => eapply sim_nextChar; rel_side : sim.
Local Hint Extern 0 (sim _ _ (nextCharAfterWsLoop _ _) _) => eapply sim_nextCharAfterWsLoop; rel_side : sim.
Local Hint Extern 0 (sim _ _ (nextCharAfterWs _) _) => eapply sim_nextCharAfterWs; rel_side : sim.
Local Hint Extern 0 (sim _ _ (writeVtd _ _ _ _) _) => eapply sim_writeVtd; rel_side : sim.
Local Hint Extern 0 (sim _ _ (writeVtdTextLoop _ _ _ _ _) _) => eapply sim_writeVtdTextLoop; rel_side : sim.
Local Hint Extern 0 (sim _ _ (writeVtdText _ _ _ _) _) => eapply sim_writeVtdText; rel_side : sim.
Local Hint Extern 0 (sim _ _ (writeVtdWithLengthCheck _ _ _) _) => eapply sim_writeVtdWithLengthCheck; rel_side : sim.
Local Hint Extern 0 (sim _ _ (prevUtf8 _ _ _) _) => eapply sim_prevUtf8; rel_side : sim.
Local Hint Extern 0 (sim _ _ (getPrevOffset _) _) => eapply sim_getPrevOffset; rel_side : sim.
Local Hint Extern 0 (sim _ _ (matchAt _ _ _) _) => eapply sim_matchAt; rel_side : sim.
Local Hint Extern 0 (sim _ _ (checkXmlPrefix _ _ _ _) _) => eapply sim_checkXmlPrefix; rel_side : sim.
Local Hint Extern 0 (sim _ _ (checkXmlnsPrefix _ _ _ _) _) => eapply sim_checkXmlnsPrefix; rel_side : sim.
Local Hint Extern 0 (sim _ _ (matchBytes _ _ _ _ _) _) => eapply sim_matchBytes; rel_side : sim.
Local Hint Extern 0 (sim _ _ (recordWhiteSpace) _) => eapply sim_recordWhiteSpace; rel_side : sim.
Local Hint Extern 0 (sim _ _ (entSeq _ _) _) => eapply sim_entSeq; rel_side : sim.
Local Hint Extern 0 (sim _ _ (entHex _ _ _) _) => eapply sim_entHex; rel_side : sim.
Local Hint Extern 0 (sim _ _ (entDec _ _ _ _) _) => eapply sim_entDec; rel_side : sim.
Local Hint Extern 0 (sim _ _ (entityIdentifier _) _) => eapply sim_entityIdentifier; rel_side : sim.
Local Hint Extern 0 (sim _ _ (skipRbrLoop _ _) _) => eapply sim_skipRbrLoop; rel_side : sim.
Local Hint Extern 0 (sim _ _ (skipRbr _) _) => eapply sim_skipRbr; rel_side : sim.
Local Hint Extern 0 (sim _ _ (handleOtherTextChar _ _) _) => eapply sim_handleOtherTextChar; rel_side : sim.
Local Hint Extern 0 (sim _ _ (validateSeqLoop _ _ _) _) => eapply sim_validateSeqLoop; rel_side : sim.
Local Hint Extern 0 (sim _ _ (validateSeq _ _) _) => eapply sim_validateSeq; rel_side : sim.
Local Hint Extern 0 (sim _ _ (getNextProcessStateFromChar _ _) _) => eapply sim_getNextProcessStateFromChar; rel_side : sim.
Local Hint Extern 0 (sim _ _ (writeTextHere _) _) => eapply sim_writeTextHere; rel_side : sim.
Local Hint Extern 0 (sim _ _ (writeEmptyPiVal) _) => eapply sim_writeEmptyPiVal; rel_side : sim.
Local Hint Extern 0 (sim _ _ (markLast) _) => eapply sim_markLast; rel_side : sim.
Local Hint Extern 0 (sim _ _ (processElementTail _) _) => eapply sim_processElementTail; rel_side : sim.
Local Hint Extern 0 (sim _ _ (setTag _ _) _) => eapply sim_setTag; rel_side : sim.
Local Hint Extern 0 (sim _ _ (endTagCompare _ _ _ _) _) => eapply sim_endTagCompare; rel_side : sim.
Local Hint Extern 0 (sim _ _ (processEndTag _) _) => eapply sim_processEndTag; rel_side : sim.
Local Hint Extern 0 (sim _ _ (isXmlTarget _ _) _) => eapply sim_isXmlTarget; rel_side : sim.
Local Hint Extern 0 (sim _ _ (textLoop _ _) _) => eapply sim_textLoop; rel_side : sim.
Local Hint Extern 0 (sim _ _ (processText _) _) => eapply sim_processText; rel_side : sim.
Local Hint Extern 0 (sim _ _ (cdataLoop _ _) _) => eapply sim_cdataLoop; rel_side : sim.
Local Hint Extern 0 (sim _ _ (processCdata _) _) => eapply sim_processCdata; rel_side : sim.
Local Hint Extern 0 (sim _ _ (commentLoop _ _) _) => eapply sim_commentLoop; rel_side : sim.
Local Hint Extern 0 (sim _ _ (processStartComment _) _) => eapply sim_processStartComment; rel_side : sim.
Local Hint Extern 0 (sim _ _ (processEndComment _) _) => eapply sim_processEndComment; rel_side : sim.
Local Hint Extern 0 (sim _ _ (processDocEnd _) _) => eapply sim_processDocEnd; rel_side : sim.
Local Hint Extern 0 (sim _ _ (skipXmlDecl _) _) => eapply sim_skipXmlDecl; rel_side : sim.
Local Hint Extern 0 (sim _ _ (skipOneSpace _) _) => eapply sim_skipOneSpace; rel_side : sim.
Local Hint Extern 0 (sim _ _ (docTypeLoop _ _ _) _) => eapply sim_docTypeLoop; rel_side : sim.
Local Hint Extern 0 (sim _ _ (processDocType _) _) => eapply sim_processDocType; rel_side : sim.
Local Hint Extern 0 (sim _ _ (piNameLoop _ _) _) => eapply sim_piNameLoop; rel_side : sim.
Local Hint Extern 0 (sim _ _ (processPiTag _) _) => eapply sim_processPiTag; rel_side : sim.
Local Hint Extern 0 (sim _ _ (piValLoop _ _) _) => eapply sim_piValLoop; rel_side : sim.
Local Hint Extern 0 (sim _ _ (processPiVal _) _) => eapply sim_processPiVal; rel_side : sim.
Local Hint Extern 0 (sim _ _ (piEndNameLoop _ _) _) => eapply sim_piEndNameLoop; rel_side : sim.
Local Hint Extern 0 (sim _ _ (piEndValLoop _ _) _) => eapply sim_piEndValLoop; rel_side : sim.
Local Hint Extern 0 (sim _ _ (processPiEnd _) _) => eapply sim_processPiEnd; rel_side : sim.
Local Hint Extern 0 (sim _ _ (attrNameLoop _ _) _) => eapply sim_attrNameLoop; rel_side : sim.
Local Hint Extern 0 (sim _ _ (attrUniqueLoop _ _ _) _) => eapply sim_attrUniqueLoop; rel_side : sim.
Local Hint Extern 0 (sim _ _ (attrNameXmlns _) _) => eapply sim_attrNameXmlns; rel_side : sim.
Local Hint Extern 0 (sim _ _ (attrValLoop _ _ _) _) => eapply sim_attrValLoop; rel_side : sim.
Local Hint Extern 0 (sim _ _ (writeDec _ _) _) => eapply sim_writeDec; rel_side : sim.
Local Hint Extern 0 (sim _ _ (skipEitherCase _ _) _) => eapply sim_skipEitherCase; rel_side : sim.
Local Hint Extern 0 (sim _ _ (cannotSwitch) _) => eapply sim_cannotSwitch; rel_side : sim.
Local Hint Extern 0 (sim _ _ (checkIsoEncoding _) _) => eapply sim_checkIsoEncoding; rel_side : sim.
Local Hint Extern 0 (sim _ _ (checkUtfEncoding _) _) => eapply sim_checkUtfEncoding; rel_side : sim.
Local Hint Extern 0 (sim _ _ (checkWinEncoding _ _ _ _) _) => eapply sim_checkWinEncoding; rel_side : sim.
Local Hint Extern 0 (sim _ _ (checkCpEncoding _) _) => eapply sim_checkCpEncoding; rel_side : sim.
Local Hint Extern 0 (sim _ _ (checkWindowsEncoding _) _) => eapply sim_checkWindowsEncoding; rel_side : sim.
Local Hint Extern 0 (sim _ _ (processDecStandaloneAttr _) _) => eapply sim_processDecStandaloneAttr; rel_side : sim.
Local Hint Extern 0 (sim _ _ (decVersionName _) _) => eapply sim_decVersionName; rel_side : sim.
Local Hint Extern 0 (sim _ _ (decEnd _) _) => eapply sim_decEnd; rel_side : sim.
Local Hint Extern 0 (sim _ _ (parseErr _ _) _) => eapply sim_parseErr; rel_side : sim.
Local Hint Extern 0 (sim _ _ (parseErrAt _ _ _) _) => eapply sim_parseErrAt; rel_side : sim.
Local Hint Extern 0 (sim _ _ (storeAttrName) _) => eapply sim_storeAttrName; rel_side : sim.
Local Hint Extern 0 (sim _ _ (idx _ _) _) => eapply pr_idx; rel_side : sim.
Local Hint Extern 0 (sim _ _ (getChar _) _) => eapply pr_getChar; rel_side : sim.
Local Hint Extern 0 (sim _ _ (skipChar _ _) _) => eapply pr_skipChar; rel_side : sim.
Local Hint Extern 0 (sim _ _ (skipCharSeq _ _) _) => eapply pr_skipCharSeq; rel_side : sim.
Local Hint Extern 0 (sim _ _ (fmtCustomLine _ _) _) => eapply pr_line; rel_side : sim.
Local Hint Extern 0 (sim _ _ (startTagNameLoop _ _) _) => eapply sp_name; rel_side : sim.
Local Hint Extern 0 (sim _ _ (writeStartTag _) _) => eapply sp_write; rel_side : sim.
Local Hint Extern 0 (sim _ _ (checkAttrUniqueness _) _) => eapply sp_unique; rel_side : sim.
Local Hint Extern 0 (sim _ _ (attrNameNsChecks _) _) => eapply sp_checks; rel_side : sim.
Local Hint Extern 0 (sim _ _ (writeAttrName _) _) => eapply sp_attr; rel_side : sim.
Local Hint Extern 0 (sim _ _ (attrValNs _) _) => eapply sp_val; rel_side : sim.
Local Hint Extern 0 (sim _ _ (checkAsciiEncoding _) _) => eapply sp_ascii; rel_side : sim.
Local Hint Extern 0 (sim _ _ (checkUsAsciiEncoding _) _) => eapply sp_usascii; rel_side : sim.

Lemma sim_wrap {A B} (m1 m2 : M A) (f : goerr -> goerr) (k1 k2 : A -> M B) :
  sim R esc0 m1 m2 -> (forall a, sim R esc (k1 a) (k2 a)) ->
  sim R esc (catch m1 (fun e => fail (f e)) k1) (catch m2 (fun e => fail (f e)) k2).
Proof.
  intros H Hk s1 s2 K. destruct (H s1 s2 K) as [E|E].
  - unfold catch. destruct (m1 s1), (m2 s2); cbn in E; try contradiction.
    + destruct E as [-> E]. apply Hk, E.
    + destruct E as [-> E]. left. split; [reflexivity | exact E].
    + left. exact E.
    + left. exact I.
  - right. exact (HE0 _ _ _ _ f k1 k2 E).
Qed.

Lemma sim_processExSeen : sim R esc (processExSeen cf1) (processExSeen cf2).
Proof. unfold processExSeen. apply sim_wrap; [auto with sim nocore|intros; cbv beta; rel]. Qed.
Local Hint Extern 0 (sim _ _ (processExSeen _) _) => apply sim_processExSeen : sim.
Lemma sim_processQmSeen : sim R esc (processQmSeen cf1) (processQmSeen cf2).
Proof. unfold processQmSeen. rel. apply sim_wrap; [auto with sim nocore|intros; cbv beta; rel]. Qed.
Local Hint Extern 0 (sim _ _ (processQmSeen _) _) => apply sim_processQmSeen : sim.
Lemma sim_processLtSeen : sim R esc (processLtSeen cf1) (processLtSeen cf2).
Proof. unfold processLtSeen. rel. apply sim_wrap; [auto with sim nocore|intros; cbv beta; rel]. Qed.
Local Hint Extern 0 (sim _ _ (processLtSeen _) _) => apply sim_processLtSeen : sim.
Lemma sim_startTagClose : sim R esc (startTagClose cf1) (startTagClose cf2).
Proof. unfold startTagClose. rel. apply (sp_close _ _ _ _ HS). Qed.
Local Hint Extern 0 (sim _ _ (startTagClose _) _) => apply sim_startTagClose : sim.
Lemma sim_processStartTag : sim R esc (processStartTag cf1) (processStartTag cf2).
Proof. unfold processStartTag. rel. apply (sp_ns _ _ _ _ HS). rel. Qed.
Local Hint Extern 0 (sim _ _ (processStartTag _) _) => apply sim_processStartTag : sim.
Lemma sim_processAttrName : sim R esc (processAttrName cf1) (processAttrName cf2).
Proof. unfold processAttrName. rel. Qed.
Local Hint Extern 0 (sim _ _ (processAttrName _) _) => apply sim_processAttrName : sim.
Lemma sim_attrValClose : sim R esc (attrValClose cf1) (attrValClose cf2).
Proof. unfold attrValClose. rel. apply (sp_vclose _ _ _ _ HS). Qed.
Local Hint Extern 0 (sim _ _ (attrValClose _) _) => apply sim_attrValClose : sim.
Lemma sim_processAttrVal : sim R esc (processAttrVal cf1) (processAttrVal cf2).
Proof. unfold processAttrVal. rel. Qed.
Local Hint Extern 0 (sim _ _ (processAttrVal _) _) => apply sim_processAttrVal : sim.
Lemma sim_processDecEncodingAttr : sim R esc (processDecEncodingAttr cf1) (processDecEncodingAttr cf2).
Proof. unfold processDecEncodingAttr. rel. Qed.
Local Hint Extern 0 (sim _ _ (processDecEncodingAttr _) _) => apply sim_processDecEncodingAttr : sim.
Lemma sim_processDecAttrName : sim R esc (processDecAttrName cf1) (processDecAttrName cf2).
Proof. unfold processDecAttrName. rel. Qed.
Local Hint Extern 0 (sim _ _ (processDecAttrName _) _) => apply sim_processDecAttrName : sim.
Lemma sim_step_but : forall ps, ps <> StDocStart -> sim R esc (step cf1 ps) (step cf2 ps).
Proof. intros ps N. unfold step. destruct ps; try congruence; rel. Qed.
End Steps.

Section Loop.
Variables cf1 cf2 : cfg.
Variable R : pst -> pst -> Prop.
Variables esc0 esc : way.
Variable mono : bool.
Hypothesis HR : frame R.
Hypothesis HB0 : leaves esc0.
Hypothesis HC0 : escapes esc0.
Hypothesis HB : leaves esc.
Hypothesis HI : forall A r1 r2, esc0 A r1 r2 -> esc A r1 r2.
Hypothesis HP0 : prims cf1 cf2 R esc0 mono.
Hypothesis HS : special cf1 cf2 R esc.
Hypothesis HF : sim R esc0 (finishUp cf1) (finishUp cf2).

Let HP : prims cf1 cf2 R esc mono := prims_sub _ _ _ _ _ _ HI HP0.
Ltac rel := rels HR HB.
Local Hint Extern 0 (sim _ _ (nextChar _) _) => eapply sim_nextChar; rel_side : sim.
Local Hint Extern 0 (sim _ _ (nextCharAfterWs _) _) => eapply sim_nextCharAfterWs; rel_side : sim.
Local Hint Extern 0 (sim _ _ (markLast) _) => eapply sim_markLast; rel_side : sim.
Local Hint Extern 0 (sim _ _ (setOffset _) _) => eapply sim_setOffset; rel_side : sim.
Local Hint Extern 0 (sim _ _ (skipXmlDecl _) _) => eapply sim_skipXmlDecl; rel_side : sim.
Local Hint Extern 0 (sim _ _ (skipOneSpace _) _) => eapply sim_skipOneSpace; rel_side : sim.
Local Hint Extern 0 (sim _ _ (skipChar _ _) _) => eapply pr_skipChar; rel_side : sim.
Local Hint Extern 0 (sim _ _ (parseErr _ _) _) => eapply sim_parseErr; rel_side : sim.

Lemma sim_catch' {A B} (m1 m2 : M A) (h1 h2 : goerr -> M B) (k1 k2 : A -> M B) :
  sim R esc0 m1 m2 -> (forall e, sim R esc (h1 e) (h2 e)) -> (forall a, sim R esc (k1 a) (k2 a)) ->
  sim R esc (catch m1 h1 k1) (catch m2 h2 k2).
Proof. apply sim_catch; assumption. Qed.
Lemma sim_processDocStart : sim R esc (processDocStart cf1) (processDocStart cf2).
Proof. unfold processDocStart. rel. apply sim_catch'; [auto with sim nocore|intros; rel|intros; cbv beta; rel]. Qed.
Local Hint Extern 0 (sim _ _ (processDocStart _) _) => apply sim_processDocStart : sim.
Lemma sim_step : forall ps, sim R esc (step cf1 ps) (step cf2 ps).
Proof.
  intros ps. destruct ps; try (eapply (sim_step_but cf1 cf2 R esc0 esc mono); try eassumption; [apply escapes_errs; assumption | discriminate]).
  apply sim_processDocStart.
Qed.

(** An error of a state other than the one after the root is returned. *)
Lemma catch_bind {A B} (m : M A) (h : goerr -> M B) (k : A -> M B) : (forall e s, h e s = RErr e s) -> forall s, catch m h k s = bind m k s.
Proof. intros H s. unfold catch, bind. destruct (m s); auto. Qed.
Lemma sim_ext {A} (m1 m2 m1' m2' : M A) : (forall s, m1 s = m1' s) -> (forall s, m2 s = m2' s) -> sim R esc m1' m2' -> sim R esc m1 m2.
Proof. intros E1 E2 S s1 s2 H. rewrite E1, E2. apply S, H. Qed.
Lemma sim_parseLoop : forall n1 n2 ps, fle mono n1 n2 -> sim R esc (parseLoop cf1 n1 ps) (parseLoop cf2 n2 ps).
Proof.
  induction n1 as [|n1 IH]; intros [|n2] ps F; [apply sim_diverge | exfalso; unfold fle in *; destruct mono; lia | eapply sim_div0; eassumption |].
  eapply fle_S in F; [|eassumption..]. cbn [parseLoop]. destruct (isDocEnd ps) eqn:E.
  - destruct ps; try discriminate. cbn [isDocEnd step]. apply sim_catch'; [eapply sim_processDocEnd; eassumption | |].
    + intros e. rewrite Bool.andb_true_r. destruct (as_eof e); [|apply sim_fail; reflexivity].
      apply sim_catch'; [exact HF | intros e'; apply sim_fail; reflexivity | intros []; apply sim_ret; reflexivity].
    + intros a. apply IH, F.
  - eapply sim_ext; [intros s; apply catch_bind; intros e s'; rewrite Bool.andb_false_r; reflexivity..|].
    apply (sim_bind _ _ HB); [apply sim_step | intros a; apply IH, F].
Qed.
End Loop.
