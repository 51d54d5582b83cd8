(** The namespace tables of the parser are never read through a page they do not
    have: Parse cannot panic on a page number, in any mode. *)
From Verif Require Import Lib XmlChar Buffer BufferProofs Reader ParserState ParserPrim ParserProc ParserMain ParserWp ParserInv ParserOutcome PropertiesParse.

(** ** Buffers *)
(** the number of pages and the counters agree *)
Definition shape {V} (b : pbuf V) : Prop := 0 <= b_exp b /\ b_psize b = 2 ^ b_exp b /\ b_cap b = zlen (b_pages b) * b_psize b.

Lemma shape_page {V} (b : pbuf V) i : shape b -> 0 <= i < b_cap b -> exists p, znth (b_pages b) (Z.shiftr i (b_exp b)) = Some p.
Proof.
  intros (E & P & C) H. apply znth_some_iff. rewrite shiftr_div by exact E. rewrite C, P in H. pose proof (pow2_pos _ E).
  split; [apply Z.div_pos; lia | apply Z.div_lt_upper_bound; lia].
Qed.
Lemma shape_at {V} werr (b : pbuf V) i w : shape b -> (0 <= i -> i < b_cap b) -> bat werr b i = Panic w -> w <> PnPage.
Proof.
  intros S H. unfold bat, bget. destruct (_ || _) eqn:G; [intros X; discriminate X|].
  assert (I : 0 <= i). { rewrite shiftr_div in G by apply S. destruct (Z_lt_ge_dec i 0) as [L|]; [|lia]. exfalso. pose proof (pow2_pos _ (proj1 S)). pose proof (Z.div_lt_upper_bound i (2 ^ b_exp b) 0 ltac:(lia) ltac:(lia)). lia. }
  destruct (shape_page b i S ltac:(lia)) as (p & ->). cbv beta iota. destruct ((i <? 0) || _); [intros X; discriminate X|]. destruct (znth p _); [intros X; discriminate X|]. intros [= <-]. discriminate.
Qed.
Lemma shape_append {V} (b b' : pbuf V) v o : shape b -> bappend b v = (b', o) ->
  shape b' /\ (forall w, o <> Panic w) /\ b_cap b <= b_cap b' /\
  (o = Ok tt -> b_size b' = b_size b + 1 /\ b_pages b' <> [] /\ (b_size b <= b_cap b -> b_size b' <= b_cap b')) /\
  (forall P : V -> Prop, Forall (Forall P) (b_pages b) -> P v -> Forall (Forall P) (b_pages b')).
Proof.
  intros S E. pose proof S as (S1 & S2 & S3). pose proof (pow2_pos _ S1). unfold bappend in E. destruct (b_size b <? b_cap b) eqn:L.
  - unfold bget in E. destruct (_ || _) eqn:G.
    + injection E as <- <-. split; [exact S|]. split; [discriminate|]. split; [lia|]. split; [discriminate|]. auto.
    + assert (I : 0 <= b_size b) by lia.
      destruct (shape_page b (b_size b) S ltac:(lia)) as (p & Ep). rewrite Ep in E. unfold bset in E. cbn [b_size b_pages setSize b_cap b_exp b_r b_psize] in E.
      destruct ((Z.shiftr (b_size b) (b_exp b) <? 0) || (b_size b + 1 <=? Z.shiftr (b_size b) (b_exp b))) eqn:G2; [exfalso; lia|].
      destruct (zupd (b_pages b) _ _) as [ps|] eqn:U; [|exfalso; pose proof (proj1 (znth_some_iff _ _) (ex_intro _ p Ep))].
      * injection E as <- <-. unfold shape. cbn [b_size b_pages b_cap b_exp b_psize]. rewrite (zupd_zlen _ _ _ _ U).
        split; [auto|]. split; [discriminate|]. split; [lia|]. split.
        { intros _. split; [reflexivity|]. split; [|lia]. intros ->. pose proof (zupd_zlen _ _ _ _ U) as Z0. rewrite zlen_nil in Z0.
          pose proof (znth_in _ _ _ Ep). destruct (b_pages b); [contradiction|]. rewrite zlen_cons in Z0. pose proof (zlen_nonneg l0). lia. }
        intros P F Pv. apply (zupd_Forall _ _ _ _ _ U F). rewrite Forall_forall in F.
        apply Forall_app. split; [exact (F p (znth_in _ _ _ Ep)) | constructor; [exact Pv | constructor]].
      * unfold zupd in U. destruct (_ || _) eqn:G3 in U; [|discriminate]. lia.
  - injection E as <- <-. unfold shape. cbn [b_size b_pages b_cap b_exp b_psize]. rewrite zlen_app. change (zlen [[v]]) with 1.
    split; [repeat split; auto; lia|]. split; [discriminate|]. split; [lia|]. split.
    { intros _. split; [reflexivity|]. split; [intros H0; apply app_eq_nil in H0; destruct H0; discriminate | lia]. }
    intros P F Pv. apply Forall_app. split; [exact F|]. repeat constructor. exact Pv.
Qed.
Lemma shape_setSize {V} (b : pbuf V) n : shape b -> shape (setSize b n).
Proof. intros H. exact H. Qed.

(** ** Functions that leave the namespace tables alone *)
Record pview : Type := PView {
  w_ns1 : intbuf; w_ns2 : longbuf; w_ns3 : longbuf; w_count : Z; w_names : Z; w_urls : list Z; w_isNs : bool; w_default : bool; w_len2 : Z }.
Definition pv (s : pst) : pview :=
  PView (s_ns1 s) (s_ns2 s) (s_ns3 s) (s_prefCount s) (zlen (s_prefNames s)) (s_prefUrls s) (s_isNs s) (s_defaultNs s) (s_len2 s).
Definition shapes (s : pst) : Prop := shape (s_vtd s) /\ shape (s_l1 s) /\ shape (s_l2 s) /\ shape (s_l3 s) /\ shape (s_l4 s) /\ shape (s_l5 s).
Definition okr {A} (s : pst) (r : res A) : Prop :=
  match r with ROk _ s' | RErr _ s' => shapes s' /\ pv s' = pv s | RPanic w => w <> PnPage | RDiverge => True end.
Definition pg {A} (m : M A) : Prop := forall s, shapes s -> okr s (m s).

Lemma pg_bind {A B} (m : M A) (k : A -> M B) : pg m -> (forall a, pg (k a)) -> pg (bind m k).
Proof.
  intros H K s S. unfold bind. specialize (H s S). destruct (m s) as [a s'|e s'|w|]; try exact H. destruct H as (S' & E).
  specialize (K a s' S'). destruct (k a s'); unfold okr in *; try exact K; destruct K; split; congruence.
Qed.
Lemma pg_catch {A B} (m : M A) (h : goerr -> M B) (k : A -> M B) : pg m -> (forall e, pg (h e)) -> (forall a, pg (k a)) -> pg (catch m h k).
Proof.
  intros H E K s S. unfold catch. specialize (H s S). destruct (m s) as [a s'|e s'|w|]; try exact H; destruct H as (S' & Q).
  - specialize (K a s' S'). destruct (k a s'); unfold okr in *; try exact K; destruct K; split; congruence.
  - specialize (E e s' S'). destruct (h e s'); unfold okr in *; try exact E; destruct E; split; congruence.
Qed.
Lemma pg_get {A} (f : pst -> A) : pg (get f). Proof. intros s S. split; [exact S | reflexivity]. Qed.
Lemma pg_ret {A} (a : A) : pg (ret a). Proof. intros s S. split; [exact S | reflexivity]. Qed.
Lemma pg_fail {A} e : pg (@fail A e). Proof. intros s S. split; [exact S | reflexivity]. Qed.
Lemma pg_panics {A} w : w <> PnPage -> pg (@panics A w). Proof. intros H s S. exact H. Qed.
Lemma pg_diverge {A} : pg (@diverge A). Proof. intros s S. exact I. Qed.
Lemma pg_lift {A} (o : out A) : o <> Panic PnPage -> pg (lift o).
Proof. intros H s S. unfold lift. destruct o; cbn; try (split; [exact S | reflexivity]). congruence. Qed.

Lemma rd_char r r' w : rdGetChar r = (r', Panic w) -> w <> PnPage.
Proof. unfold rdGetChar. destruct (_ <=? _); [discriminate|]. destruct (znth _ _); [|intros [= <- <-]; discriminate]. destruct (if rd_ascii r then _ else _); discriminate. Qed.
Lemma rd_skip r c r' w : rdSkipChar r c = (r', Panic w) -> w <> PnPage.
Proof. unfold rdSkipChar. destruct (znth _ _); [|intros [= <- <-]; discriminate]. destruct (_ =? _); discriminate. Qed.
Lemma rd_seq l : forall r r' w, rdSkipCharSeq r l = (r', Panic w) -> w <> PnPage.
Proof.
  induction l as [|c t IH]; intros r r' w; cbn [rdSkipCharSeq]; [discriminate|]. destruct (rdSkipChar r c) as [r1 [[|]|e|w1]] eqn:E; try discriminate; [apply IH|].
  intros [= <- <-]. exact (rd_skip _ _ _ _ E).
Qed.
Lemma rd_at r o : rdGetCharAt r o <> Panic PnPage.
Proof. unfold rdGetCharAt. destruct (znth _ _); discriminate. Qed.
Lemma rd_long r o : rdGetLongCharAt r o <> Panic PnPage.
Proof. unfold rdGetLongCharAt. destruct (znth _ _); [|discriminate]. destruct (_ =? 13); [|discriminate]. destruct (znth _ _); [|discriminate]. destruct (_ =? _); discriminate. Qed.
Lemma rd_ascii d o e : newAsciiReader d o e <> Panic PnPage.
Proof. unfold newAsciiReader. destruct d; [|discriminate]. destruct (_ <? _); [discriminate|]. destruct (_ || _); discriminate. Qed.

Create HintDb pg.
Ltac pstep :=
  match goal with
  | |- pg (bind _ _) => apply pg_bind; [|intros ?]
  | |- pg (catch _ _ _) => apply pg_catch; [|intros ?|intros ?]
  | |- pg (get _) => apply pg_get
  | |- pg (ret _) => apply pg_ret
  | |- pg (fail _) => apply pg_fail
  | |- pg (panics _) => apply pg_panics; discriminate
  | |- pg (lift _) => apply pg_lift; solve [apply rd_at | apply rd_long | apply rd_ascii]
  | |- pg diverge => apply pg_diverge
  | |- pg (modify _) => solve [let s := fresh "s" in let S := fresh "S" in intros s S; split; [exact S | reflexivity]]
  | |- pg (if ?b then _ else _) => destruct b
  | |- pg (match ?x with _ => _ end) => destruct x
  | |- pg (let _ := _ in _) => cbv zeta
  | |- pg ((if ?b then _ else _) _ _ _ _) => destruct b
  | |- pg (andM _ _) => unfold andM
  | |- pg (orM _ _) => unfold orM
  | |- pg (notM _) => unfold notM
  | H : _ |- _ => solve [apply H]
  | |- pg _ => solve [eauto 2 with pg]
  end.
Ltac pgo := repeat pstep.

Section Page.
Variable cf : cfg.

Lemma pg_append g st v : (forall s, shapes s -> shape (g s)) -> (forall s b, shapes s -> shape b -> shapes (st b s) /\ pv (st b s) = pv s) -> pg (appendTo g st v).
Proof.
  intros H K s S. unfold appendTo. destruct (bappend (g s) v) as [b o] eqn:E.
  destruct (shape_append _ _ _ _ (H s S) E) as (Sb & Np & _). specialize (K s b S Sb). destruct o; [exact K | exact K | exfalso; exact (Np w eq_refl)].
Qed.
Ltac papp := intros; apply pg_append; [intros s S; apply S | intros s b S Sb; split; [unfold shapes in *; psimp; intuition | reflexivity]].
Lemma pg_vtd v : pg (appendTo s_vtd set_vtd v). Proof. papp. Qed.
Lemma pg_l1 v : pg (appendTo s_l1 set_l1 v). Proof. papp. Qed.
Lemma pg_l2 v : pg (appendTo s_l2 set_l2 v). Proof. papp. Qed.
Lemma pg_l3 v : pg (appendTo s_l3 set_l3 v). Proof. papp. Qed.
Lemma pg_l4 v : pg (appendTo s_l4 set_l4 v). Proof. papp. Qed.
Lemma pg_l5 v : pg (appendTo s_l5 set_l5 v). Proof. papp. Qed.
Hint Resolve pg_vtd pg_l1 pg_l2 pg_l3 pg_l4 pg_l5 : pg.
Ltac praw := let s := fresh "s" in let S := fresh "S" in intros s S; cbv beta; repeat match goal with |- context [match ?x with _ => _ end] => lazymatch x with context [match _ with _ => _ end] => fail | _ => destruct x eqn:? end end;
  first [split; [exact S | reflexivity] | exact I | discriminate | eapply rd_char; eassumption | eapply rd_skip; eassumption | eapply rd_seq; eassumption].

Lemma pg_idx : forall i, pg (idx cf i).
Proof. intros. unfold idx. praw. Qed.
Hint Resolve pg_idx : pg.
Lemma pg_setOffset : forall o, pg (setOffset o).
Proof. intros. unfold setOffset. praw. Qed.
Hint Resolve pg_setOffset : pg.
Lemma pg_getChar : pg (getChar cf ).
Proof. intros. unfold getChar. praw. Qed.
Hint Resolve pg_getChar : pg.
Lemma pg_skipChar : forall ch, pg (skipChar cf ch).
Proof. intros. unfold skipChar. praw. Qed.
Hint Resolve pg_skipChar : pg.
Lemma pg_skipCharSeq : forall seq, pg (skipCharSeq cf seq).
Proof. intros. unfold skipCharSeq. praw. Qed.
Hint Resolve pg_skipCharSeq : pg.
Lemma pg_skipCharSeqIgnoreCase : forall seq, pg (skipCharSeqIgnoreCase cf seq).
Proof. intros seq. induction seq; intros; cbn [skipCharSeqIgnoreCase]; pgo. Qed.
Hint Resolve pg_skipCharSeqIgnoreCase : pg.
Lemma pg_nextChar : pg (nextChar cf ).
Proof. intros. unfold nextChar. pgo. Qed.
Hint Resolve pg_nextChar : pg.
Lemma pg_nextCharAfterWsLoop : forall n, pg (nextCharAfterWsLoop cf n).
Proof. intros n. induction n; intros; cbn [nextCharAfterWsLoop]; pgo. Qed.
Hint Resolve pg_nextCharAfterWsLoop : pg.
Lemma pg_nextCharAfterWs : pg (nextCharAfterWs cf ).
Proof. intros. unfold nextCharAfterWs. pgo. Qed.
Hint Resolve pg_nextCharAfterWs : pg.
Lemma pg_writeVtd : forall typ offset len depth, pg (writeVtd typ offset len depth).
Proof. intros. unfold writeVtd. pgo. Qed.
Hint Resolve pg_writeVtd : pg.
Lemma pg_writeVtdL5 : forall typ offset len depth, pg (writeVtdL5 typ offset len depth).
Proof. intros. unfold writeVtdL5. pgo. Qed.
Hint Resolve pg_writeVtdL5 : pg.
Lemma pg_writeVtdTextLoop : forall n typ rOffset j depth, pg (writeVtdTextLoop n typ rOffset j depth).
Proof. intros n. induction n; intros; cbn [writeVtdTextLoop]; pgo. Qed.
Hint Resolve pg_writeVtdTextLoop : pg.
Lemma pg_writeVtdText : forall typ offset len depth, pg (writeVtdText typ offset len depth).
Proof. intros. unfold writeVtdText. pgo. Qed.
Hint Resolve pg_writeVtdText : pg.
Lemma pg_fmtCustomLine : forall offset, pg (fmtCustomLine cf offset).
Proof. intros. unfold fmtCustomLine. praw. Qed.
Hint Resolve pg_fmtCustomLine : pg.
Lemma pg_fmtLine : pg (fmtLine cf ).
Proof. intros. unfold fmtLine. pgo. Qed.
Hint Resolve pg_fmtLine : pg.
Lemma pg_parseErr : forall A msg, pg (@parseErr cf A msg).
Proof. intros. unfold parseErr. pgo. Qed.
Hint Resolve pg_parseErr : pg.
Lemma pg_parseErrAt : forall A msg offset, pg (@parseErrAt cf A msg offset).
Proof. intros. unfold parseErrAt. pgo. Qed.
Hint Resolve pg_parseErrAt : pg.
Lemma pg_writeVtdWithLengthCheck : forall typ errMsg, pg (writeVtdWithLengthCheck cf typ errMsg).
Proof. intros. unfold writeVtdWithLengthCheck. pgo. Qed.
Hint Resolve pg_writeVtdWithLengthCheck : pg.
Lemma pg_prevUtf8 : forall n o, pg (prevUtf8 cf n o).
Proof. intros n. induction n; intros; cbn [prevUtf8]; pgo. Qed.
Hint Resolve pg_prevUtf8 : pg.
Lemma pg_getPrevOffset : pg (getPrevOffset cf ).
Proof. intros. unfold getPrevOffset. pgo. Qed.
Hint Resolve pg_getPrevOffset : pg.
Lemma pg_matchAt : forall o pat, pg (matchAt cf o pat).
Proof. intros o pat. revert o. induction pat; intros; cbn [matchAt]; pgo. Qed.
Hint Resolve pg_matchAt : pg.
Lemma pg_decideEncoding : pg (decideEncoding cf ).
Proof. intros. unfold decideEncoding. pgo. Qed.
Hint Resolve pg_decideEncoding : pg.
Lemma pg_checkXmlPrefix : forall offset len checkLength, pg (checkXmlPrefix cf offset len checkLength).
Proof. intros. unfold checkXmlPrefix. pgo. Qed.
Hint Resolve pg_checkXmlPrefix : pg.
Lemma pg_checkXmlnsPrefix : forall offset len checkLength, pg (checkXmlnsPrefix cf offset len checkLength).
Proof. intros. unfold checkXmlnsPrefix. pgo. Qed.
Hint Resolve pg_checkXmlnsPrefix : pg.
Lemma pg_matchBytes : forall n a b j, pg (matchBytes cf n a b j).
Proof. intros n. induction n; intros; cbn [matchBytes]; pgo. Qed.
Hint Resolve pg_matchBytes : pg.
Lemma pg_recordWhiteSpace : pg (recordWhiteSpace ).
Proof. intros. unfold recordWhiteSpace. pgo. Qed.
Hint Resolve pg_recordWhiteSpace : pg.
Lemma pg_entSeq : forall seq, pg (entSeq cf seq).
Proof. intros seq. induction seq; intros; cbn [entSeq]; pgo. Qed.
Hint Resolve pg_entSeq : pg.
Lemma pg_entHex : forall n value, pg (entHex cf n value).
Proof. intros n. induction n; intros; cbn [entHex]; pgo. Qed.
Hint Resolve pg_entHex : pg.
Lemma pg_entDec : forall n c value, pg (entDec cf n c value).
Proof. intros n. induction n; intros; cbn [entDec]; pgo. Qed.
Hint Resolve pg_entDec : pg.
Lemma pg_entityIdentifier : pg (entityIdentifier cf ).
Proof. intros. unfold entityIdentifier. pgo. Qed.
Hint Resolve pg_entityIdentifier : pg.
Lemma pg_skipRbrLoop : forall n, pg (skipRbrLoop cf n).
Proof. intros n. induction n; intros; cbn [skipRbrLoop]; pgo. Qed.
Hint Resolve pg_skipRbrLoop : pg.
Lemma pg_skipRbr : pg (skipRbr cf ).
Proof. intros. unfold skipRbr. pgo. Qed.
Hint Resolve pg_skipRbr : pg.
Lemma pg_handleOtherTextChar : forall c, pg (handleOtherTextChar cf c).
Proof. intros. unfold handleOtherTextChar. pgo. Qed.
Hint Resolve pg_handleOtherTextChar : pg.
Lemma pg_validateSeqLoop : forall name seq, pg (validateSeqLoop cf name seq).
Proof. intros name seq. revert name. induction seq; intros; cbn [validateSeqLoop]; pgo. Qed.
Hint Resolve pg_validateSeqLoop : pg.
Lemma pg_validateSeq : forall name, pg (validateSeq cf name).
Proof. intros. unfold validateSeq. pgo. Qed.
Hint Resolve pg_validateSeq : pg.
Lemma pg_getNextProcessStateFromChar : forall c, pg (getNextProcessStateFromChar cf c).
Proof. intros. unfold getNextProcessStateFromChar. pgo. Qed.
Hint Resolve pg_getNextProcessStateFromChar : pg.
Lemma pg_writeTextHere : forall typ, pg (writeTextHere typ).
Proof. intros. unfold writeTextHere. pgo. Qed.
Hint Resolve pg_writeTextHere : pg.
Lemma pg_writeEmptyPiVal : pg (writeEmptyPiVal ).
Proof. intros. unfold writeEmptyPiVal. pgo. Qed.
Hint Resolve pg_writeEmptyPiVal : pg.
Lemma pg_markLast : pg (markLast ).
Proof. intros. unfold markLast. pgo. Qed.
Hint Resolve pg_markLast : pg.
Lemma pg_processElementTail : pg (processElementTail cf ).
Proof. intros. unfold processElementTail. pgo. Qed.
Hint Resolve pg_processElementTail : pg.
Lemma pg_setTag : forall i v, pg (setTag i v).
Proof. intros. unfold setTag. praw. Qed.
Hint Resolve pg_setTag : pg.
Lemma pg_writeStartTag : pg (writeStartTag cf ).
Proof. intros. unfold writeStartTag. pgo. Qed.
Hint Resolve pg_writeStartTag : pg.
Lemma pg_endTagCompare : forall n a b, pg (endTagCompare cf n a b).
Proof. intros n. induction n; intros; cbn [endTagCompare]; pgo. Qed.
Hint Resolve pg_endTagCompare : pg.
Lemma pg_processEndTag : pg (processEndTag cf ).
Proof. intros. unfold processEndTag. pgo. Qed.
Hint Resolve pg_processEndTag : pg.
Lemma pg_processExSeen : pg (processExSeen cf ).
Proof. intros. unfold processExSeen. pgo. Qed.
Hint Resolve pg_processExSeen : pg.
Lemma pg_isXmlTarget : forall c, pg (isXmlTarget cf c).
Proof. intros. unfold isXmlTarget. pgo. Qed.
Hint Resolve pg_isXmlTarget : pg.
Lemma pg_processQmSeen : pg (processQmSeen cf ).
Proof. intros. unfold processQmSeen. pgo. Qed.
Hint Resolve pg_processQmSeen : pg.
Lemma pg_processLtSeen : pg (processLtSeen cf ).
Proof. intros. unfold processLtSeen. pgo. Qed.
Hint Resolve pg_processLtSeen : pg.
Lemma pg_textLoop : forall n, pg (textLoop cf n).
Proof. intros n. induction n; intros; cbn [textLoop]; pgo. Qed.
Hint Resolve pg_textLoop : pg.
Lemma pg_processText : pg (processText cf ).
Proof. intros. unfold processText. pgo. Qed.
Hint Resolve pg_processText : pg.
Lemma pg_cdataLoop : forall n, pg (cdataLoop cf n).
Proof. intros n. induction n; intros; cbn [cdataLoop]; pgo. Qed.
Hint Resolve pg_cdataLoop : pg.
Lemma pg_processCdata : pg (processCdata cf ).
Proof. intros. unfold processCdata. pgo. Qed.
Hint Resolve pg_processCdata : pg.
Lemma pg_commentLoop : forall n, pg (commentLoop cf n).
Proof. intros n. induction n; intros; cbn [commentLoop]; pgo. Qed.
Hint Resolve pg_commentLoop : pg.
Lemma pg_processStartComment : pg (processStartComment cf ).
Proof. intros. unfold processStartComment. pgo. Qed.
Hint Resolve pg_processStartComment : pg.
Lemma pg_processEndComment : pg (processEndComment cf ).
Proof. intros. unfold processEndComment. pgo. Qed.
Hint Resolve pg_processEndComment : pg.
Lemma pg_processDocEnd : pg (processDocEnd cf ).
Proof. intros. unfold processDocEnd. pgo. Qed.
Hint Resolve pg_processDocEnd : pg.
Lemma pg_skipXmlDecl : pg (skipXmlDecl cf ).
Proof. intros. unfold skipXmlDecl. pgo. Qed.
Hint Resolve pg_skipXmlDecl : pg.
Lemma pg_skipOneSpace : pg (skipOneSpace cf ).
Proof. intros. unfold skipOneSpace. pgo. Qed.
Hint Resolve pg_skipOneSpace : pg.
Lemma pg_processDocStart : pg (processDocStart cf ).
Proof. intros. unfold processDocStart. pgo. Qed.
Hint Resolve pg_processDocStart : pg.
Lemma pg_docTypeLoop : forall n z, pg (docTypeLoop cf n z).
Proof. intros n. induction n; intros; cbn [docTypeLoop]; pgo. Qed.
Hint Resolve pg_docTypeLoop : pg.
Lemma pg_processDocType : pg (processDocType cf ).
Proof. intros. unfold processDocType. pgo. Qed.
Hint Resolve pg_processDocType : pg.
Lemma pg_piNameLoop : forall n, pg (piNameLoop cf n).
Proof. intros n. induction n; intros; cbn [piNameLoop]; pgo. Qed.
Hint Resolve pg_piNameLoop : pg.
Lemma pg_processPiTag : pg (processPiTag cf ).
Proof. intros. unfold processPiTag. pgo. Qed.
Hint Resolve pg_processPiTag : pg.
Lemma pg_piValLoop : forall n, pg (piValLoop cf n).
Proof. intros n. induction n; intros; cbn [piValLoop]; pgo. Qed.
Hint Resolve pg_piValLoop : pg.
Lemma pg_processPiVal : pg (processPiVal cf ).
Proof. intros. unfold processPiVal. pgo. Qed.
Hint Resolve pg_processPiVal : pg.
Lemma pg_piEndNameLoop : forall n, pg (piEndNameLoop cf n).
Proof. intros n. induction n; intros; cbn [piEndNameLoop]; pgo. Qed.
Hint Resolve pg_piEndNameLoop : pg.
Lemma pg_piEndValLoop : forall n, pg (piEndValLoop cf n).
Proof. intros n. induction n; intros; cbn [piEndValLoop]; pgo. Qed.
Hint Resolve pg_piEndValLoop : pg.
Lemma pg_processPiEnd : pg (processPiEnd cf ).
Proof. intros. unfold processPiEnd. pgo. Qed.
Hint Resolve pg_processPiEnd : pg.
Lemma pg_attrUniqueLoop : forall n i, pg (attrUniqueLoop cf n i).
Proof. intros n. induction n; intros; cbn [attrUniqueLoop]; pgo. Qed.
Hint Resolve pg_attrUniqueLoop : pg.
Lemma pg_storeAttrName : pg (storeAttrName ).
Proof. intros. unfold storeAttrName. praw. Qed.
Hint Resolve pg_storeAttrName : pg.
Lemma pg_attrNameNsChecks : pg (attrNameNsChecks cf ).
Proof. intros. unfold attrNameNsChecks. pgo. Qed.
Hint Resolve pg_attrNameNsChecks : pg.
Lemma pg_getCharUnit : forall offset, pg (getCharUnit cf offset).
Proof. intros. unfold getCharUnit. pgo. Qed.
Hint Resolve pg_getCharUnit : pg.
Lemma pg_resolvedSeq : forall seq offset inc, pg (resolvedSeq cf seq offset inc).
Proof. intros seq. induction seq; intros; cbn [resolvedSeq]; pgo. Qed.
Hint Resolve pg_resolvedSeq : pg.
Lemma pg_resolvedHex : forall n offset inc val, pg (resolvedHex cf n offset inc val).
Proof. intros n. induction n; intros; cbn [resolvedHex]; pgo. Qed.
Hint Resolve pg_resolvedHex : pg.
Lemma pg_resolvedDec : forall n offset inc val, pg (resolvedDec cf n offset inc val).
Proof. intros n. induction n; intros; cbn [resolvedDec]; pgo. Qed.
Hint Resolve pg_resolvedDec : pg.
Lemma pg_getCharResolved : forall offset, pg (getCharResolved cf offset).
Proof. intros. unfold getCharResolved. pgo. Qed.
Hint Resolve pg_getCharResolved : pg.
Lemma pg_nsUrlLoop : forall pat offset g, pg (nsUrlLoop cf pat offset g).
Proof. intros pat. induction pat; intros; cbn [nsUrlLoop]; pgo. Qed.
Hint Resolve pg_nsUrlLoop : pg.
Lemma pg_identifyNsUrl : pg (identifyNsUrl cf ).
Proof. intros. unfold identifyNsUrl. pgo. Qed.
Hint Resolve pg_identifyNsUrl : pg.
Lemma pg_prefNameAt : forall j, pg (prefNameAt j).
Proof. intros. unfold prefNameAt. praw. Qed.
Hint Resolve pg_prefNameAt : pg.
Lemma pg_prefUrlAt : forall j, pg (prefUrlAt j).
Proof. intros. unfold prefUrlAt. praw. Qed.
Hint Resolve pg_prefUrlAt : pg.
Lemma pg_matchUrlLoop : forall n ao al bo bl, pg (matchUrlLoop cf n ao al bo bl).
Proof. intros n. induction n; intros; cbn [matchUrlLoop]; pgo. Qed.
Hint Resolve pg_matchUrlLoop : pg.
Lemma pg_matchUrl : forall ao al bo bl, pg (matchUrl cf ao al bo bl).
Proof. intros. unfold matchUrl. pgo. Qed.
Hint Resolve pg_matchUrl : pg.
Lemma pg_attrValLoop : forall n q, pg (attrValLoop cf n q).
Proof. intros n. induction n; intros; cbn [attrValLoop]; pgo. Qed.
Hint Resolve pg_attrValLoop : pg.
Lemma pg_writeDec : forall typ len, pg (writeDec typ len).
Proof. intros. unfold writeDec. pgo. Qed.
Hint Resolve pg_writeDec : pg.
Lemma pg_skipEitherCase : forall l, pg (skipEitherCase cf l).
Proof. intros. unfold skipEitherCase. pgo. Qed.
Hint Resolve pg_skipEitherCase : pg.
Lemma pg_cannotSwitch : pg (cannotSwitch ).
Proof. intros. unfold cannotSwitch. pgo. Qed.
Hint Resolve pg_cannotSwitch : pg.
Lemma pg_switchToAscii : pg (switchToAscii cf ).
Proof. intros. unfold switchToAscii. pgo. Qed.
Hint Resolve pg_switchToAscii : pg.
Lemma pg_checkAsciiEncoding : pg (checkAsciiEncoding cf ).
Proof. intros. unfold checkAsciiEncoding. pgo. Qed.
Hint Resolve pg_checkAsciiEncoding : pg.
Lemma pg_checkUsAsciiEncoding : pg (checkUsAsciiEncoding cf ).
Proof. intros. unfold checkUsAsciiEncoding. pgo. Qed.
Hint Resolve pg_checkUsAsciiEncoding : pg.
Lemma pg_checkIsoEncoding : pg (checkIsoEncoding cf ).
Proof. intros. unfold checkIsoEncoding. pgo. Qed.
Hint Resolve pg_checkIsoEncoding : pg.
Lemma pg_checkUtfEncoding : pg (checkUtfEncoding cf ).
Proof. intros. unfold checkUtfEncoding. pgo. Qed.
Hint Resolve pg_checkUtfEncoding : pg.
Lemma pg_checkWinEncoding : forall rest len msg, pg (checkWinEncoding cf rest len msg).
Proof. intros. unfold checkWinEncoding. pgo. Qed.
Hint Resolve pg_checkWinEncoding : pg.
Lemma pg_checkCpEncoding : pg (checkCpEncoding cf ).
Proof. intros. unfold checkCpEncoding. pgo. Qed.
Hint Resolve pg_checkCpEncoding : pg.
Lemma pg_checkWindowsEncoding : pg (checkWindowsEncoding cf ).
Proof. intros. unfold checkWindowsEncoding. pgo. Qed.
Hint Resolve pg_checkWindowsEncoding : pg.
Lemma pg_processDecEncodingAttr : pg (processDecEncodingAttr cf ).
Proof. intros. unfold processDecEncodingAttr. pgo. Qed.
Hint Resolve pg_processDecEncodingAttr : pg.
Lemma pg_processDecStandaloneAttr : pg (processDecStandaloneAttr cf ).
Proof. intros. unfold processDecStandaloneAttr. pgo. Qed.
Hint Resolve pg_processDecStandaloneAttr : pg.
Lemma pg_decVersionName : pg (decVersionName cf ).
Proof. intros. unfold decVersionName. pgo. Qed.
Hint Resolve pg_decVersionName : pg.
Lemma pg_decEnd : pg (decEnd cf ).
Proof. intros. unfold decEnd. pgo. Qed.
Hint Resolve pg_decEnd : pg.
Lemma pg_processDecAttrName : pg (processDecAttrName cf ).
Proof. intros. unfold processDecAttrName. pgo. Qed.
Hint Resolve pg_processDecAttrName : pg.

(** ** The namespace tables *)
Definition np {A} (m : M A) (s : pst) (Q : A -> pst -> Prop) : Prop :=
  match m s with ROk a s' => Q a s' | RPanic w => w <> PnPage | _ => True end.
Lemma np_bind {A B} (m : M A) (k : A -> M B) s Q : np m s (fun a s' => np (k a) s' Q) -> np (bind m k) s Q.
Proof. unfold np, bind. destruct (m s); auto. Qed.
Lemma np_get {A} (f : pst -> A) s (Q : A -> pst -> Prop) : Q (f s) s -> np (get f) s Q.
Proof. exact (fun H => H). Qed.
Lemma np_modify f s (Q : unit -> pst -> Prop) : Q tt (f s) -> np (modify f) s Q.
Proof. exact (fun H => H). Qed.
Lemma np_ret {A} (a : A) s (Q : A -> pst -> Prop) : Q a s -> np (ret a) s Q.
Proof. exact (fun H => H). Qed.
Lemma np_lift {A} (o : out A) s (Q : A -> pst -> Prop) : o <> Panic PnPage -> (forall a, o = Ok a -> Q a s) -> np (lift o) s Q.
Proof. intros H K. unfold np, lift. destruct o; [apply K; reflexivity | exact I | congruence]. Qed.
Lemma np_pg {A} (m : M A) s (Q : A -> pst -> Prop) : pg m -> shapes s -> (forall a s', shapes s' -> pv s' = pv s -> Q a s') -> np m s Q.
Proof. intros H S K. specialize (H s S). unfold np, okr in *. destruct (m s); auto. destruct H. auto. Qed.
Lemma np_err {A} m s (Q : A -> pst -> Prop) : shapes s -> np (parseErr cf m) s Q.
Proof.
  intros S. pose proof (pg_parseErr A m s S) as H. unfold np. destruct (parseErr cf m s) as [a s'|e s'|w|] eqn:E; auto.
  exfalso. unfold parseErr, bind in E. destruct (fmtLine cf s); discriminate.
Qed.
Lemma np_weaken {A} (m : M A) s (Q Q' : A -> pst -> Prop) : np m s Q -> (forall a s', Q a s' -> Q' a s') -> np m s Q'.
Proof. intros H K. unfold np in *. destruct (m s); auto. Qed.

(** what every value of nsBuffer1 is good for: a size of the other two tables *)
Definition okv (V : pview) (v : Z) : Prop :=
  -2^31 <= v < 2^31 /\ wrap32 (v + 1) <= b_cap (w_ns3 V) /\ (b_pages (w_ns2 V) = [] -> wrap32 (v + 1) <= 0).
Record good (V : pview) : Prop := Good {
  g_s1 : shape (w_ns1 V); g_s2 : shape (w_ns2 V); g_s3 : shape (w_ns3 V);
  g_1 : b_size (w_ns1 V) <= b_cap (w_ns1 V);
  g_2 : b_pages (w_ns2 V) = [] -> b_size (w_ns2 V) <= 0;
  g_3 : -2^31 <= b_size (w_ns3 V) <= b_cap (w_ns3 V);
  g_v : Forall (Forall (okv V)) (b_pages (w_ns1 V));
  g_c : 0 <= w_count V <= 256;
  g_n : w_names V = 256;
  g_u : forall i, 0 <= i < 256 -> znth (w_urls V) i = Some 0 }.
Definition strict (V : pview) : Prop := b_pages (w_ns2 V) = [] -> b_size (w_ns3 V) <= 0.
(** between the name and the value of a prefix declaration the prefix is already recorded *)
Definition pending (V : pview) : Prop := strict V \/ (w_isNs V = true /\ w_default V = false).
Definition calm (V : pview) : Prop := good V /\ strict V /\ w_isNs V = false.
Definition NsI (ps : pstate) (s : pst) : Prop :=
  shapes s /\ s_len2 s = 0 /\ good (pv s) /\ match ps with StAttrVal => pending (pv s) | _ => strict (pv s) /\ s_isNs s = false end.
(** the same except for the prefix length *)
Definition same (V V' : pview) : Prop :=
  exists n, V' = PView (w_ns1 V) (w_ns2 V) (w_ns3 V) (w_count V) (w_names V) (w_urls V) (w_isNs V) (w_default V) n.
Lemma same_refl V : same V V.
Proof. exists (w_len2 V). destruct V. reflexivity. Qed.
Lemma same_trans V W X : same V W -> same W X -> same V X.
Proof. intros (n & ->) (m & ->). exists m. reflexivity. Qed.
Lemma same_good V V' : same V V' -> good V -> good V'.
Proof. intros (n & ->) []. constructor; assumption. Qed.
Lemma same_calm V V' : same V V' -> calm V -> calm V'.
Proof. intros S (G & C). split; [exact (same_good _ _ S G)|]. destruct S as (n & ->). exact C. Qed.

Lemma wrap32_le x : -2^31 <= x -> wrap32 x <= x.
Proof. intros H. unfold wrap32. lia. Qed.
Lemma bat_in {V} werr (b : pbuf V) i v : bat werr b i = Ok v -> exists p, In p (b_pages b) /\ In v p.
Proof.
  unfold bat, bget. destruct (_ || _); [discriminate|]. destruct (znth (b_pages b) _) as [p|] eqn:E; [|discriminate].
  destruct ((i <? 0) || _); [discriminate|]. destruct (znth p _) eqn:E2; [|discriminate]. intros [= <-]. exists p. split; eapply znth_in; eassumption.
Qed.
Lemma upper_np b i : shape b -> (0 <= i -> i < b_cap b) -> upper32At b i <> Panic PnPage.
Proof. intros S H. unfold upper32At. destruct (longAt b i) eqn:E; try discriminate. intros [= ->]. exact (shape_at _ _ _ _ S H E eq_refl). Qed.
Lemma lower_np b i : shape b -> (0 <= i -> i < b_cap b) -> lower32At b i <> Panic PnPage.
Proof. intros S H. unfold lower32At. destruct (longAt b i) eqn:E; try discriminate. intros [= ->]. exact (shape_at _ _ _ _ S H E eq_refl). Qed.

Lemma calm_ns1 s s' b o : calm (pv s) -> bappend (s_ns1 s) (wrap32 (b_size (s_ns3 s) - 1)) = (b, o) -> o = Ok tt ->
  pv s' = PView b (s_ns2 s) (s_ns3 s) (s_prefCount s) (zlen (s_prefNames s)) (s_prefUrls s) (s_isNs s) (s_defaultNs s) (s_len2 s) -> calm (pv s').
Proof.
  intros ([] & St & Hn) E Ok -> . cbn [pv w_ns1 w_ns2 w_ns3 w_count w_names w_urls w_isNs w_default w_len2] in *.
  destruct (shape_append _ _ _ _ g_s4 E) as (Sb & _ & Cb & K & F). destruct (K Ok) as (Kz & _ & Kc). specialize (Kc g_4).
  split; [|split; [exact St | exact Hn]]. constructor; cbn [w_ns1 w_ns2 w_ns3 w_count w_names w_urls]; try assumption.
  apply F; [exact g_v0|]. pose proof (wrap32_range (b_size (s_ns3 s) - 1)).
  assert (W : wrap32 (wrap32 (b_size (s_ns3 s) - 1) + 1) = wrap32 (b_size (s_ns3 s))) by (unfold wrap32; lia).
  pose proof (wrap32_le (b_size (s_ns3 s)) ltac:(lia)). unfold okv, strict in *. cbn [w_ns2 w_ns3 pv] in *. rewrite W. split; [lia|]. split; [lia|]. intros N. specialize (St N). lia.
Qed.
Lemma np_appendNs1 s (Q : unit -> pst -> Prop) : shapes s -> calm (pv s) ->
  (forall s', shapes s' -> calm (pv s') -> s_len2 s' = s_len2 s -> Q tt s') -> np appendNs1 s Q.
Proof.
  intros S C HQ. unfold appendNs1. apply np_bind, np_get. unfold np, appendTo.
  destruct (bappend (s_ns1 s) _) as [b o] eqn:E. destruct (shape_append _ _ _ _ (g_s1 _ (proj1 C)) E) as (_ & Np & _).
  destruct o as [[]|e|w]; [|exact I|exfalso; exact (Np w eq_refl)].
  apply HQ; [exact S | | reflexivity]. exact (calm_ns1 s (set_ns1 b s) b (Ok tt) C E eq_refl eq_refl).
Qed.
Lemma np_startTagNs s (Q : unit -> pst -> Prop) : shapes s -> calm (pv s) ->
  (forall s', shapes s' -> calm (pv s') -> Q tt s') -> np (startTagNs cf) s Q.
Proof.
  intros S C HQ. unfold startTagNs. destruct (c_ns cf); [|apply np_ret, HQ; assumption]. apply np_bind, np_get.
  assert (K : forall s1, shapes s1 -> calm (pv s1) -> np (s <- get (fun s => s) ;;
    if s_depth s <=? b_size (s_ns1 s) - 1 then
      modify (set_ns1 (setSize (s_ns1 s) (s_depth s))) ;;;
      s <- get (fun s => s) ;;
      t <- lift (intAt (s_ns1 s) (s_depth s - 1)) ;;
      modify (set_ns2 (setSize (s_ns2 s) (wrap32 (t + 1)))) ;;;
      modify (set_ns3 (setSize (s_ns3 s) (wrap32 (t + 1))))
    else ret tt) s1 Q).
  { clear s S C. intros s S C. apply np_bind, np_get. destruct (s_depth s <=? b_size (s_ns1 s) - 1) eqn:D; [|apply np_ret, HQ; assumption].
    apply np_bind, np_modify, np_bind, np_get. psimp. apply np_bind.
    destruct C as ([] & St & Hn). cbn [pv w_ns1 w_ns2 w_ns3 w_count w_names w_urls w_isNs w_default w_len2] in *.
    apply np_lift.
    { intros E. refine (shape_at _ _ _ _ (shape_setSize _ _ g_s4) _ E eq_refl). cbn [b_cap setSize]. lia. }
    intros t Et. destruct (bat_in _ _ _ _ Et) as (p & Hp & Ht). cbn [b_pages setSize] in Hp. pose proof g_v0 as Gv. rewrite Forall_forall in g_v0. specialize (g_v0 p Hp).
    pose proof (proj1 (Forall_forall _ _) g_v0 t Ht) as (T1 & T2 & T3). cbn [w_ns2 w_ns3 pv] in T2, T3. pose proof (wrap32_range (t + 1)).
    apply np_bind, np_modify, np_modify, HQ; [exact S|]. split; [|split; [|exact Hn]].
    - constructor; cbn [pv w_ns1 w_ns2 w_ns3 w_count w_names w_urls b_size b_cap b_pages setSize]; psimp; try assumption; cbn [b_size b_cap b_pages setSize]; try lia.
    - unfold strict. cbn [pv w_ns2 w_ns3]. psimp. cbn [b_size b_pages setSize]. exact T3. }
  apply np_bind. destruct (s_len2 s =? 0); [apply np_modify, K; assumption|]. cbv zeta. apply np_bind, np_modify, np_modify, K; [exact S|].
  refine (same_calm (pv s) _ _ C). eexists. reflexivity.
Qed.

(** *** Lookups *)
Lemma np_qualifyElementLoop n : forall i a b s (Q : bool -> pst -> Prop), shapes s -> good (pv s) -> i < b_cap (s_ns3 s) ->
  (forall x s', shapes s' -> pv s' = pv s -> Q x s') -> np (qualifyElementLoop cf n i a b) s Q.
Proof.
  induction n as [|n IH]; intros i a b s Q S G Hi HQ; cbn [qualifyElementLoop]; [apply np_ret, HQ; [exact S | reflexivity]|].
  apply np_bind, np_get, np_bind, np_lift; [apply upper_np; [apply G | intros _; exact Hi]|]. intros u _. cbv zeta.
  destruct (_ =? a); [|apply IH; [assumption.. | lia | exact HQ]].
  destruct (lower32At (s_ns3 s) i) as [l|e|w] eqn:E; [| |].
  - apply np_bind, np_pg; [apply pg_matchBytes | exact S|]. intros j s1 S1 E1. destruct (_ =? _); [apply np_ret, HQ; assumption|].
    apply IH; [exact S1 | rewrite E1; exact G | change (s_ns3 s1) with (w_ns3 (pv s1)); rewrite E1; cbn [pv w_ns3]; lia |].
    intros x s2 S2 E2. apply HQ; [exact S2 | congruence].
  - apply np_ret, HQ; [exact S | reflexivity].
  - unfold np, panics. intros ->. exact (lower_np (s_ns3 s) i (g_s3 _ G) (fun _ => Hi) E).
Qed.
Lemma np_qualifyElement s (Q : unit -> pst -> Prop) : shapes s -> good (pv s) ->
  (forall s', shapes s' -> pv s' = pv s -> Q tt s') -> np (qualifyElement cf) s Q.
Proof.
  intros S G HQ. unfold qualifyElement. apply np_bind, np_get. cbv zeta. pose proof (g_3 _ G) as G3. cbn [pv w_ns3] in G3.
  apply np_bind, np_qualifyElementLoop; [exact S | exact G | lia|].
  intros x s1 S1 E1. destruct x; [apply np_ret, HQ; assumption|]. apply np_bind, np_pg; [apply pg_checkXmlPrefix | exact S1|].
  intros y s2 S2 E2. destruct y; [apply np_ret, HQ; congruence|]. apply np_pg; [apply pg_parseErrAt | exact S2|]. intros [] s3 S3 E3. apply HQ; congruence.
Qed.
Lemma np_qualifyAttrLoop n : forall i a b s (Q : Z -> pst -> Prop), shapes s -> good (pv s) -> i < b_cap (s_ns3 s) ->
  (forall x s', shapes s' -> pv s' = pv s -> Q x s') -> np (qualifyAttrLoop cf n i a b) s Q.
Proof.
  induction n as [|n IH]; intros i a b s Q S G Hi HQ; cbn [qualifyAttrLoop]; [apply np_ret, HQ; [exact S | reflexivity]|].
  apply np_bind, np_get, np_bind, np_lift; [apply upper_np; [apply G | intros _; exact Hi]|]. intros u _.
  destruct (_ =? _); [|apply IH; [assumption.. | lia | exact HQ]].
  apply np_bind, np_lift; [apply lower_np; [apply G | intros _; exact Hi]|]. intros l _.
  apply np_bind, np_pg; [apply pg_matchBytes | exact S|]. intros j s1 S1 E1. destruct (_ =? _); [apply np_ret, HQ; assumption|].
  apply IH; [exact S1 | rewrite E1; exact G | change (s_ns3 s1) with (w_ns3 (pv s1)); rewrite E1; cbn [pv w_ns3]; lia |].
  intros x s2 S2 E2. apply HQ; [exact S2 | congruence].
Qed.
(** [prefUrls] grows at its end; its first 256 entries stay 0 *)
Definition grown (V V' : pview) : Prop :=
  exists u, V' = PView (w_ns1 V) (w_ns2 V) (w_ns3 V) (w_count V) (w_names V) (w_urls V ++ u) (w_isNs V) (w_default V) (w_len2 V).
Lemma grown_refl V : grown V V.
Proof. exists []. rewrite app_nil_r. destruct V. reflexivity. Qed.
Lemma grown_trans V W X : grown V W -> grown W X -> grown V X.
Proof. intros (n & ->) (m & ->). exists (n ++ m). cbn. rewrite app_assoc. reflexivity. Qed.
Lemma grown_calm V V' : grown V V' -> calm V -> calm V'.
Proof.
  intros (u & ->) ([] & C). split; [|exact C]. constructor; try assumption. cbn [w_urls]. intros i Hi. rewrite znth_app1; [exact (g_u0 i Hi)|].
  pose proof (proj1 (znth_some_iff _ _) (ex_intro _ _ (g_u0 255 ltac:(lia)))). lia.
Qed.
Lemma np_qualifyAttrsLoop n : forall j s (Q : unit -> pst -> Prop), shapes s -> calm (pv s) ->
  (forall s', shapes s' -> grown (pv s) (pv s') -> Q tt s') -> np (qualifyAttrsLoop cf n j) s Q.
Proof.
  induction n as [|n IH]; intros j s Q S C HQ; cbn [qualifyAttrsLoop]; [apply np_ret, HQ; [exact S | apply grown_refl]|].
  apply np_bind, np_pg; [apply pg_prefNameAt | exact S|]. intros e s1 S1 E1. rewrite <- E1 in C. apply np_bind, np_get. pose proof (g_3 _ (proj1 C)) as G3. cbn [pv w_ns3] in G3.
  apply np_bind, np_qualifyAttrLoop; [exact S1 | apply C | lia |]. intros x s2 S2 E2. destruct (x <? 0); [apply np_err, S2|].
  apply np_bind, np_get, np_bind, np_modify. rewrite <- E2 in C. rewrite <- E1, <- E2 in HQ.
  assert (G : grown (pv s2) (pv (set_prefUrls (s_prefUrls s2 ++ [x]) s2))) by (exists [x]; reflexivity).
  apply IH; [exact S2 | exact (grown_calm _ _ G C)|]. intros s3 S3 G3'. apply HQ; [exact S3|]. exact (grown_trans _ _ _ G G3').
Qed.
Lemma zero_np (b : longbuf) : shape b -> (b_pages b = [] -> b_size b <= 0) -> forall w, longAt b 0 = Panic w -> w <> PnPage.
Proof.
  intros S H w E. destruct (b_pages b) as [|p l] eqn:P.
  - unfold longAt, bat, bget in E. rewrite Z.shiftr_0_l in E. specialize (H eq_refl). destruct ((0 <? 0) || (b_size b <=? 0)) eqn:G; [discriminate E | lia].
  - refine (shape_at _ _ _ _ S _ E). intros _. destruct S as (S1 & S2 & ->). rewrite P, zlen_cons. pose proof (zlen_nonneg l). pose proof (pow2_pos _ S1). nia.
Qed.
Lemma np_urlOf i s (Q : Z * Z -> pst -> Prop) : shapes s -> calm (pv s) -> 0 <= i < 256 -> (forall x, Q x s) -> np (urlOf i) s Q.
Proof.
  intros S C Hi HQ. unfold urlOf. pose proof (g_u _ (proj1 C) i Hi) as U. cbn [pv w_urls] in U.
  apply np_bind. unfold np at 1, prefUrlAt. rewrite U. apply np_bind, np_get.
  pose proof (zero_np _ (g_s2 _ (proj1 C)) (g_2 _ (proj1 C))) as Z0. cbn [pv w_ns2] in Z0.
  apply np_bind, np_lift.
  { unfold lower32At. destruct (longAt (s_ns2 s) 0) eqn:E; try discriminate. intros [= ->]. exact (Z0 _ eq_refl eq_refl). }
  intros l _. apply np_bind, np_lift.
  { unfold upper32At. destruct (longAt (s_ns2 s) 0) eqn:E; try discriminate. intros [= ->]. exact (Z0 _ eq_refl eq_refl). }
  intros o _. apply np_ret, HQ.
Qed.
Lemma np_qualUniqueInner n : forall j o l u s (Q : unit -> pst -> Prop), shapes s -> calm (pv s) -> 0 <= j -> j + Z.of_nat n <= Z.max j 256 ->
  (forall s', shapes s' -> pv s' = pv s -> Q tt s') -> np (qualUniqueInner cf n j o l u) s Q.
Proof.
  induction n as [|n IH]; intros j o l u s Q S C Hj Hn HQ; cbn [qualUniqueInner]; [apply np_ret, HQ; [exact S | reflexivity]|].
  apply np_bind, np_pg; [apply pg_prefNameAt | exact S|]. intros e s1 S1 E1. apply np_bind, np_get. cbv zeta. apply np_bind.
  assert (K : forall s2, shapes s2 -> pv s2 = pv s -> np (qualUniqueInner cf n (j + 1) o l u) s2 Q).
  { intros s2 S2 E2. apply IH; [exact S2 | rewrite E2; exact C | lia | lia |]. intros s3 S3 E3. apply HQ; [exact S3 | congruence]. }
  destruct (l =? _); [|apply np_ret, K; assumption].
  apply np_bind, np_pg; [apply pg_matchBytes | exact S1|]. intros k s2 S2 E2. destruct (_ =? _); [|apply np_ret, K; congruence].
  apply np_bind, np_urlOf; [exact S2 | rewrite E2, E1; exact C | lia |]. intros x.
  apply np_bind, np_pg; [apply pg_matchUrl | exact S2|]. intros m s3 S3 E3. destruct m; [|apply np_ret, K; congruence].
  apply np_pg; [apply pg_parseErrAt | exact S3|]. intros [] s4 S4 E4. apply K; congruence.
Qed.
Lemma np_qualUniqueOuter n : forall i t s (Q : unit -> pst -> Prop), shapes s -> calm (pv s) -> 0 <= i -> i + Z.of_nat n <= t -> t <= 256 ->
  (forall s', shapes s' -> pv s' = pv s -> Q tt s') -> np (qualUniqueOuter cf n i t) s Q.
Proof.
  induction n as [|n IH]; intros i t s Q S C Hi Hn Ht HQ; cbn [qualUniqueOuter]; [apply np_ret, HQ; [exact S | reflexivity]|].
  apply np_bind, np_pg; [apply pg_prefNameAt | exact S|]. intros e s1 S1 E1. apply np_bind, np_get. cbv zeta.
  apply np_bind, np_urlOf; [exact S1 | rewrite E1; exact C | lia |]. intros x.
  apply np_bind, np_qualUniqueInner; [exact S1 | rewrite E1; exact C | lia | lia |]. intros s2 S2 E2.
  apply IH; [exact S2 | rewrite E2, E1; exact C | lia | lia | lia |]. intros s3 S3 E3. apply HQ; congruence.
Qed.

(** *** Start tags *)
Lemma calm_any ps s : shapes s -> s_len2 s = 0 -> calm (pv s) -> NsI ps s.
Proof. intros S L (G & St & Hn). split; [exact S|]. split; [exact L|]. split; [exact G|]. destruct ps; try (split; assumption). left. exact St. Qed.
Lemma np_startTagNameLoop n : forall s (Q : unit -> pst -> Prop), shapes s ->
  (forall s', shapes s' -> same (pv s) (pv s') -> Q tt s') -> np (startTagNameLoop cf n) s Q.
Proof.
  induction n as [|n IH]; intros s Q S HQ; cbn [startTagNameLoop]; [exact I|].
  apply np_bind, np_pg; [apply pg_nextChar | exact S|]. intros [] s1 S1 E1. apply np_bind, np_get. destruct (isNameChar _); [|apply np_ret, HQ; [exact S1 | rewrite E1; apply same_refl]].
  assert (K : forall s2, shapes s2 -> same (pv s) (pv s2) -> np (startTagNameLoop cf n) s2 Q).
  { intros s2 S2 E2. apply IH; [exact S2|]. intros s3 S3 E3. apply HQ; [exact S3 | exact (same_trans _ _ _ E2 E3)]. }
  apply np_bind. destruct (_ =? _); [|apply np_ret, K; [exact S1 | rewrite E1; apply same_refl]].
  apply np_bind, np_get, np_bind, np_modify. set (s2 := set_len2 _ s1). assert (S2 : shapes s2) by exact S1.
  assert (E2 : same (pv s) (pv s2)) by (rewrite <- E1; eexists; reflexivity). clearbody s2.
  destruct (c_ns cf); [|apply np_ret, K; assumption].
  apply np_bind, np_pg; [apply pg_checkXmlnsPrefix | exact S2|]. intros x s3 S3 E3. destruct x; [apply np_err, S3|]. apply np_ret, K; [exact S3 | rewrite E3; exact E2].
Qed.
Lemma np_calm {A} (m : M A) s (Q : A -> pst -> Prop) : pg m -> shapes s -> calm (pv s) -> s_len2 s = 0 ->
  (forall a s', shapes s' -> calm (pv s') -> s_len2 s' = 0 -> Q a s') -> np m s Q.
Proof.
  intros H S C L HQ. apply np_pg; [exact H | exact S|]. intros a s' S' E. apply HQ; [exact S' | rewrite E; exact C|].
  change (s_len2 s') with (w_len2 (pv s')). rewrite E. exact L.
Qed.
Lemma np_startTagClose s : shapes s -> calm (pv s) -> s_len2 s = 0 -> np (startTagClose cf) s NsI.
Proof.
  intros S C L. unfold startTagClose. apply np_bind, np_modify. set (s1 := set_helper true s). assert (S1 : shapes s1) by exact S. assert (C1 : calm (pv s1)) by exact C. assert (L1 : s_len2 s1 = 0) by exact L.
  clearbody s1. clear s S C L. apply np_bind, np_get, np_bind. apply np_calm; [pgo | assumption..|]. intros [] s2 S2 C2 L2. apply np_bind, np_get.
  destruct (_ =? _); [|apply np_err, S2]. apply np_bind.
  assert (K : forall s3, shapes s3 -> calm (pv s3) -> s_len2 s3 = 0 -> np (processElementTail cf) s3 NsI).
  { intros s3 S3 C3 L3. apply np_calm; [apply pg_processElementTail | assumption..|]. intros ps s4 S4 C4 L4. apply calm_any; assumption. }
  destruct (c_ns cf); [|apply np_ret, K; assumption].
  apply np_bind, np_appendNs1; [assumption..|]. intros s3 S3 C3 L3. rewrite L2 in L3. apply np_bind, np_get. destruct (_ =? 0); [apply np_ret, K; assumption|].
  apply np_qualifyElement; [exact S3 | apply C3|]. intros s4 S4 E4. apply K; [exact S4 | rewrite E4; exact C3|].
  change (s_len2 s4) with (w_len2 (pv s4)). rewrite E4. exact L3.
Qed.
Lemma np_processStartTag s : NsI StTagStart s -> np (processStartTag cf) s NsI.
Proof.
  intros (S & L & G & St & Hn). assert (C : calm (pv s)) by (repeat split; try apply G; assumption). unfold processStartTag.
  apply np_bind, np_startTagNameLoop; [exact S|]. intros s1 S1 E1. apply (same_calm _ _ E1) in C. clear s S L G St Hn E1.
  apply np_bind, np_get, np_bind, np_modify. set (s2 := set_len1 _ s1). assert (S2 : shapes s2) by exact S1. assert (C2 : calm (pv s2)) by exact C. clearbody s2.
  destruct (_ <? _); [apply np_err, S2|]. apply np_bind, np_get.
  apply np_bind, np_pg; [apply pg_setTag | exact S2|]. intros [] s3 S3 E3. rewrite <- E3 in C2. clear E3. apply np_bind, np_pg; [pgo | exact S3|].
  intros [] s4 S4 E4. rewrite <- E4 in C2. clear E4. apply np_bind, np_pg; [apply pg_writeStartTag | exact S4|]. intros [] s5 S5 E5. rewrite <- E5 in C2. clear E5.
  apply np_bind, np_startTagNs; [assumption..|]. intros s6 S6 C6. apply np_bind, np_modify. set (s7 := set_len2 0 s6). assert (S7 : shapes s7) by exact S6.
  assert (C7 : calm (pv s7)) by (refine (same_calm (pv s6) _ _ C6); eexists; reflexivity). assert (L7 : s_len2 s7 = 0) by reflexivity. clearbody s7.
  apply np_bind, np_get. destruct (isSpaceChar _); [|apply np_startTagClose; assumption].
  apply np_bind, np_calm; [apply pg_nextCharAfterWs | assumption..|]. intros [] s8 S8 C8 L8. apply np_bind, np_get. destruct (isNameStartChar _); [|apply np_startTagClose; assumption].
  apply np_calm; [pgo | assumption..|]. intros ps s9 S9 C9 L9. apply calm_any; assumption.
Qed.

(** *** Attributes *)
Lemma np_attrNameLoop n : forall s (Q : unit -> pst -> Prop), shapes s ->
  (forall s', shapes s' -> same (pv s) (pv s') -> (isNameChar (s_cur s) = false -> s' = s) -> Q tt s') -> np (attrNameLoop cf n) s Q.
Proof.
  induction n as [|n IH]; intros s Q S HQ; cbn [attrNameLoop]; [exact I|].
  apply np_bind, np_get. destruct (isNameChar (s_cur s)) eqn:N; [|apply np_ret, HQ; [exact S | apply same_refl | reflexivity]].
  assert (K : forall s2, shapes s2 -> same (pv s) (pv s2) -> np (nextChar cf ;;; attrNameLoop cf n) s2 Q).
  { intros s2 S2 E2. apply np_bind, np_pg; [apply pg_nextChar | exact S2|]. intros [] s3 S3 E3. apply IH; [exact S3|]. intros s4 S4 E4 _.
    apply HQ; [exact S4 | rewrite E3 in E4; exact (same_trans _ _ _ E2 E4) | discriminate]. }
  apply np_bind. destruct (_ =? _); [|apply np_ret, K; [exact S | apply same_refl]].
  apply np_modify, K; [exact S | eexists; reflexivity].
Qed.
Lemma np_attrNameXmlns s (Q : unit -> pst -> Prop) : shapes s ->
  (forall s', shapes s' -> pv s' = pv s -> Q tt s') ->
  (forall s', shapes s' -> pv s' = PView (s_ns1 s) (s_ns2 s) (s_ns3 s) (s_prefCount s) (zlen (s_prefNames s)) (s_prefUrls s) true true (s_len2 s) ->
     isNameChar (s_cur s') = false -> Q tt s') ->
  (forall s', shapes s' -> pv s' = PView (s_ns1 s) (s_ns2 s) (s_ns3 s) (s_prefCount s) (zlen (s_prefNames s)) (s_prefUrls s) true false (s_len2 s) -> Q tt s') ->
  np (attrNameXmlns cf) s Q.
Proof.
  intros S H1 H2 H3. unfold attrNameXmlns. apply np_bind, np_get. destruct (_ =? _); [|apply np_ret, H1; [exact S | reflexivity]].
  apply np_bind, np_pg; [apply pg_skipCharSeq | exact S|]. intros b s1 S1 E1. destruct b; [|apply np_ret, H1; assumption].
  apply np_bind, np_pg; [apply pg_nextChar | exact S1|]. intros [] s2 S2 E2. apply np_bind, np_get. rewrite E1 in E2.
  destruct (_ || _) eqn:D.
  - apply np_bind, np_modify, np_modify, H2; [exact S2 | injection E2 as <- <- <- <- <- <- _ _ <-; reflexivity|].
    change (isNameChar (s_cur s2) = false). unfold isSpaceChar, in_list, space_chars in D. cbn [existsb] in D. assert (O : s_cur s2 = 61 \/ s_cur s2 = 32 \/ s_cur s2 = 9 \/ s_cur s2 = 10 \/ s_cur s2 = 13) by lia.
    destruct O as [-> | [-> | [-> | [-> | ->]]]]; reflexivity.
  - match goal with |- np (if ?c then _ else _) _ _ => destruct c end; [|apply np_ret, H1; assumption].
    apply np_bind, np_modify, np_modify, H3; [exact S2 | injection E2 as <- <- <- <- <- <- _ _ <-; reflexivity].
Qed.
(** the number of prefixed attributes grows by at most one *)
Definition counted (V V' : pview) : Prop :=
  exists n, V' = PView (w_ns1 V) (w_ns2 V) (w_ns3 V) n (w_names V) (w_urls V) (w_isNs V) (w_default V) (w_len2 V) /\ 0 <= n <= 256.
Lemma counted_good V V' : counted V V' -> good V -> good V'.
Proof. intros (n & -> & R) []. constructor; assumption. Qed.
Lemma np_checkAttrUniqueness s (Q : unit -> pst -> Prop) : shapes s -> good (pv s) ->
  (forall s', shapes s' -> counted (pv s) (pv s') -> Q tt s') -> np (checkAttrUniqueness cf) s Q.
Proof.
  intros S G HQ. unfold checkAttrUniqueness. apply np_bind, np_get, np_bind, np_pg; [apply pg_attrUniqueLoop | exact S|]. intros u s1 S1 E1.
  assert (K : forall s2, shapes s2 -> pv s2 = pv s -> Q tt s2).
  { intros s2 S2 E2. apply HQ; [exact S2|]. rewrite E2. exists (w_count (pv s)). split; [destruct (pv s); reflexivity | apply G]. }
  destruct (_ && _); [apply np_err, S1|]. apply np_bind, np_pg; [apply pg_storeAttrName | exact S1|]. intros [] s2 S2 E2. rewrite E1 in E2.
  apply np_bind, np_get. destruct (_ && _); [|apply np_ret, K; assumption].
  apply np_bind, np_pg; [apply pg_checkXmlPrefix | exact S2|]. intros x s3 S3 E3. rewrite E2 in E3.
  match goal with |- np (if ?c then _ else _) _ _ => destruct c end; [apply np_ret, K; assumption|].
  unfold np, storePrefName. destruct (zupd _ _ _) as [l|] eqn:U; [|discriminate]. apply HQ; [exact S3|]. rewrite <- E3 in *. clear E3.
  exists (s_prefCount s3 + 1). pose proof (g_c _ G) as Gc. pose proof (g_n _ G) as Gn. cbn [pv w_count w_names] in Gc, Gn. split.
  - cbn [pv w_ns1 w_ns2 w_ns3 w_names w_urls w_isNs w_default w_len2]. rewrite <- (zupd_zlen _ _ _ _ U). reflexivity.
  - unfold zupd in U. destruct (_ || _) eqn:O in U; [discriminate|]. lia.
Qed.
Lemma good_ns3 s b o v : good (pv s) -> bappend (s_ns3 s) v = (b, o) -> o = Ok tt -> good (pv (set_ns3 b s)).
Proof.
  intros [] E Ho. cbn [pv w_ns1 w_ns2 w_ns3 w_count w_names w_urls] in *. destruct (shape_append _ _ _ _ g_s6 E) as (Sb & _ & Cb & K & _). destruct (K Ho) as (Kz & _ & Kc).
  constructor; cbn [pv w_ns1 w_ns2 w_ns3 w_count w_names w_urls]; psimp; try assumption; [lia|].
  rewrite Forall_forall in *. intros q Hq. specialize (g_v0 q Hq). rewrite Forall_forall in *. intros x Hx. specialize (g_v0 x Hx).
  unfold okv in *. cbn [w_ns2 w_ns3] in *. destruct g_v0 as (A & B & D). split; [exact A|]. split; [|exact D]. cbn [pv w_ns3] in *. psimp. lia.
Qed.
Lemma good_ns2 s b o v : good (pv s) -> bappend (s_ns2 s) v = (b, o) -> o = Ok tt -> good (pv (set_ns2 b s)) /\ strict (pv (set_ns2 b s)).
Proof.
  intros [] E Ho. cbn [pv w_ns1 w_ns2 w_ns3 w_count w_names w_urls] in *. destruct (shape_append _ _ _ _ g_s5 E) as (Sb & _ & Cb & K & _). destruct (K Ho) as (Kz & Kn & Kc).
  split; [|intros N; contradiction (Kn N)].
  constructor; cbn [pv w_ns1 w_ns2 w_ns3 w_count w_names w_urls]; psimp; try assumption; [intros N; contradiction (Kn N)|].
  rewrite Forall_forall in *. intros q Hq. specialize (g_v0 q Hq). rewrite Forall_forall in *. intros x Hx. specialize (g_v0 x Hx).
  unfold okv in *. cbn [w_ns2 w_ns3] in *. destruct g_v0 as (A & B & D). split; [exact A|]. split; [exact B | intros N; contradiction (Kn N)].
Qed.
(** before the name of an attribute is written: what the flags say *)
Definition named (s : pst) : Prop :=
  good (pv s) /\ strict (pv s) /\ (s_isNs s = false \/ s_len2 s = 0 \/ (s_isNs s = true /\ s_defaultNs s = false)).
Lemma np_writeAttrName s (Q : unit -> pst -> Prop) : shapes s -> named s ->
  (forall s', shapes s' -> good (pv s') -> pending (pv s') -> Q tt s') -> np (writeAttrName cf) s Q.
Proof.
  intros S (G & St & F) HQ. unfold writeAttrName. apply np_bind, np_get. cbv zeta. apply np_bind.
  assert (K : forall s1, shapes s1 -> good (pv s1) -> pending (pv s1) -> forall (c : bool) m t o l d, np (if c then parseErr cf m else writeVtd t o l d) s1 Q).
  { intros s1 S1 G1 P1 c m t o l d. destruct c; [apply np_err, S1|]. apply np_pg; [apply pg_writeVtd | exact S1|]. intros [] s2 S2 E2. rewrite <- E2 in G1, P1. apply HQ; assumption. }
  match goal with |- np (if ?c then _ else _) _ _ => destruct c eqn:D end.
  - unfold np at 1, appendTo. destruct (bappend (s_ns3 s) _) as [b o] eqn:E. destruct (shape_append _ _ _ _ (g_s3 _ G) E) as (_ & Np & _).
    destruct o as [[]|e|w]; [|exact I|exfalso; exact (Np w eq_refl)].
    assert (P : pending (pv (set_ns3 b s))).
    { right. destruct F as [F|[F|F]]; [rewrite F in D; discriminate | | exact F]. exfalso. rewrite F in D. cbn in D. rewrite !andb_false_r in D. discriminate. }
    pose proof (good_ns3 _ _ _ _ G E eq_refl) as G1. assert (S1 : shapes (set_ns3 b s)) by exact S. destruct (s_single s); apply K; assumption.
  - apply np_ret. destruct (s_single s); apply K; try assumption; left; assumption.
Qed.
Lemma np_processAttrName s : NsI StAttrName s -> np (processAttrName cf) s NsI.
Proof.
  intros (S & L & G & St & Hn). unfold processAttrName.
  assert (T : forall s1, shapes s1 -> named s1 -> np (o <- getPrevOffset cf ;;
     l <- get s_last ;;
     modify (set_len1 (o - l)) ;;;
     attrNameNsChecks cf ;;;
     checkAttrUniqueness cf ;;;
     writeAttrName cf ;;;
     modify (set_len2 0) ;;;
     c <- get s_cur ;;
     (if isSpaceChar c then nextCharAfterWs cf else ret tt) ;;;
     c <- get s_cur ;;
     if negb (c =? CH_EQ) then parseErr cf InvalidChar
     else
       nextCharAfterWs cf ;;;
       c <- get s_cur ;;
       if negb (c =? CH_DQ) && negb (c =? CH_SQ) then parseErr cf (InvalidChar ++ " should be ' or "" ")%string
       else markLast ;;; ret StAttrVal) s1 NsI).
  { clear s S L G St Hn. intros s S N.
    assert (NP : forall s', pv s' = pv s -> named s').
    { intros s' E. unfold named. change (s_isNs s') with (w_isNs (pv s')). change (s_len2 s') with (w_len2 (pv s')). change (s_defaultNs s') with (w_default (pv s')). rewrite E. exact N. }
    apply np_bind, np_pg; [apply pg_getPrevOffset | exact S|]. intros o s1 S1 E1. apply np_bind, np_get, np_bind, np_modify. set (s2 := set_len1 _ s1).
    assert (S2 : shapes s2) by exact S1. assert (E2 : pv s2 = pv s) by exact E1. clearbody s2.
    apply np_bind, np_pg; [apply pg_attrNameNsChecks | exact S2|]. intros [] s3 S3 E3. rewrite E2 in E3. pose proof (NP s3 E3) as N3. clear N NP E1 E2 E3.
    apply np_bind, np_checkAttrUniqueness; [exact S3 | apply N3|]. intros s4 S4 C4.
    assert (N4 : named s4).
    { pose proof (counted_good _ _ C4 (proj1 N3)) as G4. destruct C4 as (n & E4 & _). split; [exact G4|].
      unfold strict. change (s_isNs s4) with (w_isNs (pv s4)). change (s_len2 s4) with (w_len2 (pv s4)). change (s_defaultNs s4) with (w_default (pv s4)). rewrite E4. exact (proj2 N3). }
    apply np_bind, np_writeAttrName; [assumption..|]. intros s5 S5 G5 P5. apply np_bind, np_modify. set (s6 := set_len2 0 s5). assert (S6 : shapes s6) by exact S5.
    assert (G6 : good (pv s6)) by (refine (same_good (pv s5) _ _ G5); eexists; reflexivity). assert (P6 : pending (pv s6)) by exact P5. assert (L6 : s_len2 s6 = 0) by reflexivity. clearbody s6.
    apply np_bind, np_get, np_bind, np_pg; [pgo | exact S6|]. intros [] s7 S7 E7. apply np_bind, np_get.
    match goal with |- np (if ?c then _ else _) _ _ => destruct c end; [apply np_err, S7|].
    apply np_bind, np_pg; [apply pg_nextCharAfterWs | exact S7|]. intros [] s8 S8 E8. apply np_bind, np_get.
    match goal with |- np (if ?c then _ else _) _ _ => destruct c end; [apply np_err, S8|].
    apply np_bind, np_pg; [apply pg_markLast | exact S8|]. intros [] s9 S9 E9. rewrite E8, E7 in E9. apply np_ret. split; [exact S9|].
    change (s_len2 s9) with (w_len2 (pv s9)). rewrite E9. split; [exact L6|]. split; assumption. }
  apply np_bind, np_attrNameXmlns; [exact S| | |].
  - intros s1 S1 E1. apply np_bind, np_attrNameLoop; [exact S1|]. intros s2 S2 E2 _. rewrite E1 in E2. apply T; [exact S2|].
    pose proof (same_good _ _ E2 G) as G2. destruct E2 as (n & E2). split; [exact G2|]. split; [unfold strict; rewrite E2; exact St|]. left.
    change (s_isNs s2) with (w_isNs (pv s2)). rewrite E2. exact Hn.
  - intros s1 S1 E1 N1. apply np_bind, np_attrNameLoop; [exact S1|]. intros s2 S2 _ E2. rewrite (E2 N1). clear E2 s2 S2. apply T; [exact S1|].
    split; [rewrite E1; destruct G; constructor; assumption|]. split; [rewrite E1; exact St|]. right; left. change (s_len2 s1) with (w_len2 (pv s1)). rewrite E1. exact L.
  - intros s1 S1 E1. apply np_bind, np_attrNameLoop; [exact S1|]. intros s2 S2 E2 _. rewrite E1 in E2. apply T; [exact S2|]. destruct E2 as (n & E2).
    split; [rewrite E2; destruct G; constructor; assumption|]. split; [rewrite E2; exact St|]. right; right.
    change (s_isNs s2) with (w_isNs (pv s2)). change (s_defaultNs s2) with (w_default (pv s2)). rewrite E2. split; reflexivity.
Qed.
Lemma np_attrValNs s (Q : unit -> pst -> Prop) : shapes s -> good (pv s) -> pending (pv s) -> c_ns cf = true -> s_len2 s = 0 ->
  (forall s', shapes s' -> good (pv s') -> strict (pv s') -> s_len2 s' = 0 -> Q tt s') -> np (attrValNs cf) s Q.
Proof.
  intros S G P Hns L HQ. unfold attrValNs. apply np_bind, np_get. rewrite Hns. cbn [andb].
  destruct (s_isNs s) eqn:N.
  2:{ apply np_ret, HQ; try assumption. destruct P as [P|(P & _)]; [exact P | change (w_isNs (pv s)) with (s_isNs s) in P; congruence]. }
  match goal with |- np (if ?c then _ else _) _ _ => destruct c end; [apply np_err, S|].
  apply np_bind, np_pg; [apply pg_identifyNsUrl | exact S|]. intros u s1 S1 E1. rewrite <- E1 in G, P. assert (L1 : s_len2 s1 = 0) by (change (s_len2 s1) with (w_len2 (pv s1)); rewrite E1; exact L).
  apply np_bind, np_get. match goal with |- np (if ?c then _ else _) _ _ => destruct c end; [apply np_err, S1|]. apply np_bind.
  assert (K : forall s2, shapes s2 -> good (pv s2) -> strict (pv s2) -> s_len2 s2 = 0 -> np (match u with
        | NsDefault => ret tt
        | Ns1998 => parseErr cf "namespace declation cannot point to http://www.w3.org/XML/1998/namespace"
        | Ns2000 => parseErr cf "namespace declation cannot point to http://www.w3.org/2000/xmlns"
        end) s2 Q).
  { intros s2 S2 G2 St2 L2. destruct u; [apply np_ret, HQ; assumption | apply np_err, S2 | apply np_err, S2]. }
  destruct (s_defaultNs s1) eqn:D.
  - apply np_ret, K; try assumption. destruct P as [P|(_ & P)]; [exact P | change (w_default (pv s1)) with (s_defaultNs s1) in P; congruence].
  - unfold np at 1, appendTo. destruct (bappend (s_ns2 s1) _) as [b o] eqn:E. destruct (shape_append _ _ _ _ (g_s2 _ G) E) as (_ & Np & _).
    destruct o as [[]|e|w]; [|exact I|exfalso; exact (Np w eq_refl)]. destruct (good_ns2 _ _ _ _ G E eq_refl) as (G2 & St2).
    apply K; [exact S1 | exact G2 | exact St2 | exact L1].
Qed.
Lemma np_attrValClose s : shapes s -> calm (pv s) -> s_len2 s = 0 -> np (attrValClose cf) s NsI.
Proof.
  intros S C L. unfold attrValClose. apply np_bind, np_modify. set (s1 := set_helper true s). assert (S1 : shapes s1) by exact S. assert (C1 : calm (pv s1)) by exact C. assert (L1 : s_len2 s1 = 0) by exact L.
  clearbody s1. clear s S C L. apply np_bind, np_get, np_bind. apply np_calm; [pgo | assumption..|]. intros [] s2 S2 C2 L2. apply np_bind, np_get.
  destruct (_ =? _); [|apply np_err, S2]. apply np_bind.
  assert (K : forall s3, shapes s3 -> calm (pv s3) -> s_len2 s3 = 0 -> np (modify (set_attrCount 0) ;;; processElementTail cf) s3 NsI).
  { intros s3 S3 C3 L3. apply np_bind, np_modify, np_calm; [apply pg_processElementTail | assumption..|]. intros ps s4 S4 C4 L4. apply calm_any; assumption. }
  destruct (c_ns cf); [|apply np_ret, K; assumption].
  apply np_bind, np_appendNs1; [assumption..|]. intros s3 S3 C3 L3. rewrite L2 in L3. apply np_bind, np_get, np_bind.
  assert (Z1 : forall s4, shapes s4 -> calm (pv s4) -> s_len2 s4 = 0 ->
    np (r <- get s_rec ;; (if r =? 0 then ret tt else qualifyElement cf) ;;; modify (set_prefCount 0)) s4
       (fun _ s' => np (modify (set_attrCount 0) ;;; processElementTail cf) s' NsI)).
  { intros s4 S4 C4 L4.
    assert (Z2 : forall s5, shapes s5 -> calm (pv s5) -> s_len2 s5 = 0 -> np (modify (set_prefCount 0)) s5 (fun _ s' => np (modify (set_attrCount 0) ;;; processElementTail cf) s' NsI)).
    { intros s5 S5 C5 L5. apply np_modify, K; [exact S5 | | exact L5]. destruct C5 as ([] & R). split; [|exact R]. constructor; try assumption. cbn [pv w_count]. psimp. lia. }
    apply np_bind, np_get, np_bind. destruct (_ =? 0); [apply np_ret, Z2; assumption|]. apply np_qualifyElement; [exact S4 | apply C4|]. intros s5 S5 E5.
    apply Z2; [exact S5 | rewrite E5; exact C4 | change (s_len2 s5) with (w_len2 (pv s5)); rewrite E5; exact L4]. }
  pose proof (g_c _ (proj1 C3)) as Gc. cbn [pv w_count] in Gc.
  match goal with |- np (if ?c then _ else _) _ _ => destruct c end; cbv iota; [|apply np_ret; apply np_bind; apply np_ret; apply Z1; assumption].
  unfold qualifyAttributes. apply np_bind, np_get, np_qualifyAttrsLoop; [assumption..|]. intros s4 S4 G4. pose proof (grown_calm _ _ G4 C3) as C4.
  assert (L4 : s_len2 s4 = 0) by (destruct G4 as (u & G4); change (s_len2 s4) with (w_len2 (pv s4)); rewrite G4; exact L3).
  pose proof (g_c _ (proj1 C4)) as Gc4. cbn [pv w_count] in Gc4.
  apply np_bind. unfold checkQualifiedAttributeUniqueness. apply np_bind, np_get, np_qualUniqueOuter; [assumption.. | lia | lia | lia |]. intros s5 S5 E5.
  apply Z1; [exact S5 | rewrite E5; exact C4 | change (s_len2 s5) with (w_len2 (pv s5)); rewrite E5; exact L4].
Qed.
Lemma np_processAttrVal s : c_ns cf = true -> NsI StAttrVal s -> np (processAttrVal cf) s NsI.
Proof.
  intros Hns (S & L & G & P). unfold processAttrVal. apply np_bind, np_get.
  apply np_bind, np_pg; [apply pg_attrValLoop | exact S|]. intros [] s1 S1 E1. rewrite <- E1 in G, P. assert (L1 : s_len2 s1 = 0) by (change (s_len2 s1) with (w_len2 (pv s1)); rewrite E1; exact L).
  apply np_bind, np_get, np_bind, np_modify, np_bind, np_attrValNs; [exact S1 | exact G | exact P | exact Hns | exact L1|]. intros s2 S2 G2 St2 L2.
  apply np_bind, np_pg; [apply pg_writeVtdWithLengthCheck | exact S2|]. intros [] s3 S3 E3. rewrite <- E3 in G2, St2. assert (L3 : s_len2 s3 = 0) by (change (s_len2 s3) with (w_len2 (pv s3)); rewrite E3; exact L2).
  apply np_bind, np_modify, np_bind, np_modify. set (s4 := set_isNs false _). assert (S4 : shapes s4) by exact S3.
  assert (C4 : calm (pv s4)) by (split; [destruct G2; constructor; assumption | split; [exact St2 | reflexivity]]). assert (L4 : s_len2 s4 = 0) by exact L3. clearbody s4.
  apply np_bind, np_calm; [apply pg_nextChar | assumption..|]. intros [] s5 S5 C5 L5. apply np_bind, np_get. destruct (isSpaceChar _); [|apply np_attrValClose; assumption].
  apply np_bind, np_calm; [apply pg_nextCharAfterWs | assumption..|]. intros [] s6 S6 C6 L6. apply np_bind, np_get. destruct (isNameStartChar _); [|apply np_attrValClose; assumption].
  apply np_calm; [pgo | assumption..|]. intros ps s7 S7 C7 L7. apply calm_any; assumption.
Qed.

(** ** The main loop *)
Lemma np_step ps s : c_ns cf = true -> NsI ps s -> np (step cf ps) s NsI.
Proof.
  intros Hns H.
  assert (O : forall m, pg m -> calm (pv s) -> np m s NsI).
  { intros m P C. destruct H as (S & L & _). apply np_calm; [exact P | assumption..|]. intros ps' s' S' C' L'. apply calm_any; assumption. }
  destruct ps; try (cbn [step]; apply O; [solve [auto with pg | pgo] | destruct H as (_ & _ & G & R); split; [exact G | exact R]]).
  - apply np_processStartTag, H.
  - apply np_processAttrName, H.
  - apply np_processAttrVal; [exact Hns | exact H].
Qed.
Lemma shapes_docEnd s e s' : shapes s -> step cf StDocEnd s = RErr e s' -> shapes s'.
Proof. intros S E. pose proof (pg_processDocEnd s S) as H. cbn [step] in E. rewrite E in H. exact (proj1 H). Qed.
Lemma pg_finishUp : pg (finishUp cf).
Proof. unfold finishUp. pgo. Qed.
Lemma np_parseLoop n : forall ps s, c_ns cf = true -> NsI ps s -> np (parseLoop cf n ps) s (fun _ _ => True).
Proof.
  induction n as [|n IH]; intros ps s Hns H; cbn [parseLoop]; [exact I|].
  pose proof (np_step ps s Hns H) as St. unfold np, catch in *. destruct (step cf ps s) as [ps' s'|e s'|w|] eqn:E; [|..|exact St|exact I].
  - exact (IH ps' s' Hns St).
  - destruct (as_eof e && isDocEnd ps) eqn:D; [|exact I]. destruct ps; try (cbn in D; rewrite andb_false_r in D; discriminate).
    pose proof (pg_finishUp s' (shapes_docEnd s e s' (proj1 H) E)) as F. destruct (finishUp cf s'); try exact I. exact F.
Qed.
Lemma np_parse s : c_ns cf = true -> shapes s -> calm (pv s) -> s_len2 s = 0 -> np (parse cf) s (fun _ _ => True).
Proof.
  intros Hns S C L. unfold parse. apply np_bind, np_calm; [apply pg_decideEncoding | assumption..|]. intros [] s1 S1 C1 L1.
  apply np_bind, np_get, np_bind, np_calm; [apply pg_writeVtd | assumption..|]. intros [] s2 S2 C2 L2.
  apply np_parseLoop; [exact Hns|]. apply calm_any; assumption.
Qed.
End Page.

(** ** A new parser *)
Lemma repr_shape {V} e (b : pbuf V) xs : repr e b xs -> shape b.
Proof. intros []. unfold shape. rewrite rp_exp, rp_ps, rp_cap. split; [lia | split; reflexivity]. Qed.
Lemma new_calm opts cf s : newVtdParser opts = Ok (cf, s) -> shapes s /\ calm (pv s) /\ s_len2 s = 0.
Proof.
  intros N. unfold newVtdParser in N. destruct (k_doc (applyPOpts opts)) as [doc|]; [|discriminate N]. set (k := applyPOpts opts) in *. clearbody k.
  destruct (zlen doc =? 0); [discriminate N|]. destruct (k_offset k <? 0); [discriminate N|]. destruct (_ || _); [discriminate N|]. unfold parserInit in N.
  destruct (newIntBuf [6]) as [ns1|e|w] eqn:E1; [|discriminate N..]. cbn [obind] in N.
  destruct (newLongBuf [6]) as [ns2|e|w] eqn:E2; [|discriminate N..]. cbn [obind] in N.
  destruct (newUtf8Reader _ _ _); [|discriminate N..]. cbn [obind] in N.
  destruct (newLongBuf_ok _ (vtdExp_range (k_length k))) as (vtd & X & Rv). rewrite X in N. cbn [obind] in N.
  destruct (newLongBuf_ok _ (l1Exp_range (k_shallow k) (k_length k))) as (l1 & X1 & R1). rewrite X1 in N. cbn [obind] in N.
  destruct (newLongBuf_ok _ (l2Exp_range (k_shallow k) (k_length k))) as (l2 & X2 & R2). rewrite X2 in N. cbn [obind] in N.
  destruct (newLongBuf_ok _ (l345Exp_range (k_shallow k) (k_length k))) as (l3 & X3 & R3). rewrite X3 in N. cbn [obind] in N.
  injection N as <- <-. split; [|split; [|reflexivity]].
  - unfold shapes, initState. psimp. repeat split; try (eapply repr_shape; eassumption); eapply repr_shape; eassumption.
  - vm_compute in E1. vm_compute in E2. injection E1 as <-. injection E2 as <-. split; [|split; [|reflexivity]].
    + constructor; unfold pv, initState; psimp; cbn [w_ns1 w_ns2 w_ns3 w_count w_names w_urls]; try (unfold shape; cbn; repeat split; lia); try (cbn; lia); try constructor.
      all: try reflexivity. intros i Hi. unfold znth. rewrite zlen_repeat. destruct (_ || _) eqn:N0; [lia|]. rewrite nth_error_repeat by lia. reflexivity.
    + intros _. unfold initState. cbn. lia.
Qed.
Theorem parse_page opts : Forall go_value opts -> ns_of opts = true -> runParser opts <> Panicked PnPage.
Proof.
  intros Hg Hns R. unfold runParser in R. pose proof (new_spec opts Hg) as V. destruct (newVtdParser opts) as [[cf s]|e|w] eqn:N; [|discriminate R..].
  destruct V as (_ & _ & _ & _ & V & _). rewrite Hns in V.
  destruct (new_calm _ _ _ N) as (S & C & L). pose proof (np_parse cf s V S C L) as H. unfold np in H.
  destruct (parse cf s); try discriminate R. injection R as ->. exact (H eq_refl).
Qed.
