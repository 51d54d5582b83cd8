(** Weakest preconditions for the parser monad, and the state invariant used to
    prove termination, the list of reachable panics and the error positions. *)
From Verif Require Import Lib XmlChar Buffer BufferProofs Reader ParserState ParserPrim ParserProc ParserMain SpecParse.

Ltac psimp :=
  cbn [s_off s_roff s_rascii s_last s_len1 s_len2 s_depth s_vtdDepth s_lastDepth s_inc s_rootIndex s_l1i s_l2i s_l3i s_l4i s_attrCount s_prefCount s_attrNames s_prefUrls s_cur s_rec s_defaultNs s_isNs s_isXml s_single s_bom s_mustUtf8 s_helper s_ws s_enc s_vtd s_l1 s_l2 s_l3 s_l4 s_l5 s_ns1 s_ns2 s_ns3 s_tags s_prefNames set_off set_roff set_rascii set_last set_len1 set_len2 set_depth set_vtdDepth set_lastDepth set_inc set_rootIndex set_l1i set_l2i set_l3i set_l4i set_attrCount set_prefCount set_attrNames set_prefUrls set_cur set_rec set_defaultNs set_isNs set_isXml set_single set_bom set_mustUtf8 set_helper set_ws set_enc set_vtd set_l1 set_l2 set_l3 set_l4 set_l5 set_ns1 set_ns2 set_ns3 set_tags set_prefNames].
Ltac psimp_in H :=
  cbn [s_off s_roff s_rascii s_last s_len1 s_len2 s_depth s_vtdDepth s_lastDepth s_inc s_rootIndex s_l1i s_l2i s_l3i s_l4i s_attrCount s_prefCount s_attrNames s_prefUrls s_cur s_rec s_defaultNs s_isNs s_isXml s_single s_bom s_mustUtf8 s_helper s_ws s_enc s_vtd s_l1 s_l2 s_l3 s_l4 s_l5 s_ns1 s_ns2 s_ns3 s_tags s_prefNames set_off set_roff set_rascii set_last set_len1 set_len2 set_depth set_vtdDepth set_lastDepth set_inc set_rootIndex set_l1i set_l2i set_l3i set_l4i set_attrCount set_prefCount set_attrNames set_prefUrls set_cur set_rec set_defaultNs set_isNs set_isXml set_single set_bom set_mustUtf8 set_helper set_ws set_enc set_vtd set_l1 set_l2 set_l3 set_l4 set_l5 set_ns1 set_ns2 set_ns3 set_tags set_prefNames] in H.

(** The two ways scanning moves: to position [o], and to position [o] with
    current character [c]. *)
Definition mv (o : Z) (s : pst) : pst := set_off o (set_roff o s).
Definition adv (o c : Z) (s : pst) : pst := set_cur c (mv o s).
Lemma adv_adv o c o' c' s : adv o c (adv o' c' s) = adv o c s.
Proof. reflexivity. Qed.
Lemma mv_mv o o' s : mv o (mv o' s) = mv o s.
Proof. reflexivity. Qed.

(** ** Line and column *)
Lemma lineScan_ok doc n : forall so line lo, 0 <= so -> so + Z.of_nat n <= zlen doc ->
  exists l lo', lineScan doc n so line lo = Some (l, lo') /\
   exists before seg after, doc = before ++ seg ++ after /\ zlen before = so /\ zlen seg = Z.of_nat n /\
     l = line + count_lf seg /\
     ((~ In lf seg /\ lo' = lo) \/ (exists a b, seg = a ++ lf :: b /\ ~ In lf b /\ lo' = so + zlen a)).
Proof.
  induction n as [|n IH]; intros so line lo Hso Hn.
  - exists line, lo. split; [reflexivity|].
    exists (firstn (Z.to_nat so) doc), [], (skipn (Z.to_nat so) doc).
    split; [rewrite app_nil_l; symmetry; apply firstn_skipn|].
    split; [unfold zlen in *; rewrite firstn_length; lia|].
    split; [reflexivity|]. split; [cbn; lia|]. left; split; [intros []|reflexivity].
  - assert (exists b, znth doc so = Some b) as [b Hb] by (apply znth_some_iff; lia).
    cbn [lineScan]. rewrite Hb.
    assert (Hcons : forall before seg after, doc = before ++ seg ++ after -> zlen before = so + 1 ->
      exists before', before = before' ++ [b] /\ zlen before' = so).
    { intros before seg after E L.
      assert (before <> []) by (intros ->; change (zlen (@nil byte)) with 0 in L; lia).
      destruct (exists_last H) as [b' [x ->]]. rewrite zlen_app, zlen_one in L.
      exists b'. split; [|lia]. rewrite E in Hb. rewrite <- !app_assoc in Hb.
      replace so with (zlen b') in Hb by lia. cbn [app] in Hb. rewrite znth_app_here in Hb. congruence. }
    destruct (b2z b =? 10) eqn:Eb.
    + destruct (IH (so + 1) (line + 1) so ltac:(lia) ltac:(lia)) as (l & lo' & E & before & seg & after & D & L1 & L2 & El & Hlo).
      exists l, lo'. split; [exact E|].
      destruct (Hcons _ _ _ D L1) as (before' & -> & L1').
      assert (b = lf) as -> by (apply b2z_inj; cbn; lia).
      exists before', (lf :: seg), after. split; [rewrite D, <- app_assoc; reflexivity|].
      split; [exact L1'|]. split; [rewrite zlen_cons; lia|]. split; [change (count_lf (lf :: seg)) with (1 + count_lf seg); lia|].
      right. destruct Hlo as [[Hn0 ->]|(a & b & -> & Hb0 & ->)].
      * exists [], seg. split; [reflexivity|]. split; [exact Hn0|]. change (zlen (@nil byte)) with 0; lia.
      * exists (lf :: a), b. split; [reflexivity|]. split; [exact Hb0|]. rewrite zlen_cons; lia.
    + destruct (IH (so + 1) line lo ltac:(lia) ltac:(lia)) as (l & lo' & E & before & seg & after & D & L1 & L2 & El & Hlo).
      exists l, lo'. split; [exact E|].
      destruct (Hcons _ _ _ D L1) as (before' & -> & L1').
      exists before', (b :: seg), after. split; [rewrite D, <- app_assoc; reflexivity|].
      split; [exact L1'|]. split; [rewrite zlen_cons; lia|].
      assert (Hne : b <> lf) by (intros ->; cbn in Eb; discriminate).
      split; [rewrite El; f_equal; clear - Hne; destruct b; try reflexivity; elim Hne; reflexivity|].
      destruct Hlo as [[Hn0 ->]|(a & b' & -> & Hb0 & ->)].
      * left. split; [|reflexivity]. intros [E'|E']; [congruence | tauto].
      * right. exists (b :: a), b'. split; [reflexivity|]. split; [exact Hb0|]. rewrite zlen_cons; lia.
Qed.

Section Wp.
Variable cf : cfg.
Notation doc := (c_doc cf).

(** A zero byte follows the window. *)
Definition padded : Prop := znth doc (c_end cf) = Some x00.

Definition lbOk (b : longbuf) : Prop := exists e l, repr e b l.
Definition bufsOk (s : pst) : Prop :=
  lbOk (s_vtd s) /\ lbOk (s_l1 s) /\ lbOk (s_l2 s) /\ lbOk (s_l3 s) /\ lbOk (s_l4 s) /\ lbOk (s_l5 s).

Fixpoint errOk (e : goerr) : Prop :=
  match e with
  | EParse _ (Some (l, c)) => exists o, c_docOffset cf <= o <= zlen doc /\ line_col doc (c_docOffset cf) o l c
  | EInternal _ (Some e') => errOk e'
  | EParse _ None => False
  | EEof m => m = XmlIncomplete
  | EInvalidArg _ _ (Some e') => errOk e'
  | ENavigation _ | EModify _ => False
  | _ => True
  end.
(** The panics of the namespace functions *)
Definition nsPanic (w : panic) : Prop := w = PnDocIndex \/ w = PnPage.
Definition panicOk (w : panic) : Prop :=
  (c_ns cf = true /\ nsPanic w) \/ (w = PnSkipAtEnd /\ ~ padded) \/ w = PnTagStack \/ w = PnAttrNames.
Definition divOk : Prop := c_ns cf = true /\ long_reference doc.

Definition wp {A} (m : M A) (s : pst) (Q : A -> pst -> Prop) : Prop :=
  match m s with
  | ROk a s' => Q a s'
  | RErr e s' => errOk e /\ bufsOk s'
  | RPanic w => panicOk w
  | RDiverge => divOk
  end.

Lemma wp_bind {A B} (m : M A) (k : A -> M B) s Q :
  wp m s (fun a s' => wp (k a) s' Q) -> wp (bind m k) s Q.
Proof. unfold wp, bind. destruct (m s); auto. Qed.
Lemma wp_conseq {A} (m : M A) s (Q Q' : A -> pst -> Prop) :
  wp m s Q' -> (forall a s', Q' a s' -> Q a s') -> wp m s Q.
Proof. unfold wp. destruct (m s); auto. Qed.
Lemma wp_ret {A} (a : A) s (Q : A -> pst -> Prop) : Q a s -> wp (ret a) s Q.
Proof. auto. Qed.
Lemma wp_get {A} (f : pst -> A) s (Q : A -> pst -> Prop) : Q (f s) s -> wp (get f) s Q.
Proof. auto. Qed.
Lemma wp_modify f s (Q : unit -> pst -> Prop) : Q tt (f s) -> wp (modify f) s Q.
Proof. auto. Qed.
Lemma wp_fail {A} e s (Q : A -> pst -> Prop) : errOk e -> bufsOk s -> wp (fail e) s Q.
Proof. unfold wp, fail; auto. Qed.
Lemma wp_panics {A} w s (Q : A -> pst -> Prop) : panicOk w -> wp (panics w) s Q.
Proof. auto. Qed.
Lemma wp_catch {A B} (m : M A) (h : goerr -> M B) (k : A -> M B) s Q :
  match m s with
  | ROk a s' => wp (k a) s' Q
  | RErr e s' => wp (h e) s' Q
  | RPanic w => panicOk w
  | RDiverge => divOk
  end -> wp (catch m h k) s Q.
Proof. unfold wp, catch. destruct (m s); auto. Qed.
(** [catch] with a handler that wraps the error *)
Lemma wp_catch_wrap {A B} (m : M A) msg (k : A -> M B) s Q :
  wp m s (fun a s' => wp (k a) s' Q) -> wp (catch m (fun e => fail (EInternal msg (Some e))) k) s Q.
Proof. unfold wp, catch. destruct (m s); auto. Qed.
Lemma wp_andM (a b : M bool) s Q :
  wp a s (fun x s' => if x then wp b s' Q else Q false s') -> wp (andM a b) s Q.
Proof. intros H. apply wp_bind. eapply wp_conseq; [exact H|]. intros [|] s' H'; [exact H' | exact H']. Qed.
Lemma wp_orM (a b : M bool) s Q :
  wp a s (fun x s' => if x then Q true s' else wp b s' Q) -> wp (orM a b) s Q.
Proof. intros H. apply wp_bind. eapply wp_conseq; [exact H|]. intros [|] s' H'; exact H'. Qed.

(** ** The invariant *)
Definition tagok (t : Z) : Prop :=
  0 <= wrap32 t /\ 0 <= wrap32 (Z.shiftr t 32) /\ wrap32 t + wrap32 (Z.shiftr t 32) <= zlen doc.
Definition attrok (e : Z) : Prop :=
  0 <= wrap32 (Z.shiftr e 32) /\ wrap32 (Z.shiftr e 32) + wrap32 e <= zlen doc.
Definition prefok (n : Z) (l : list Z) : Prop :=
  forall j e, 0 <= j < n -> znth l j = Some e -> c_docOffset cf <= prefOs e.

Record Core (s : pst) : Prop := mkCore {
  k_inc : s_inc s = 1;
  k_single : s_single s = true;
  k_enc : s_enc s = 0;
  k_rascii : s_rascii s = false;
  k_ws : s_ws s = false;
  k_off : c_docOffset cf <= s_off s <= s_roff s;
  k_roff : s_roff s <= zlen doc;
  k_pad : padded -> s_roff s <= c_end cf;
  k_last : 0 <= s_last s <= s_roff s;
  k_depth : -1 <= s_depth s <= 255;
  k_tags : zlen (s_tags s) = 256 /\ Forall tagok (s_tags s);
  k_attrs : zlen (s_attrNames s) = 256 /\ Forall attrok (s_attrNames s) /\ 0 <= s_attrCount s <= 256;
  k_prefs : 0 <= s_prefCount s /\ prefok (s_prefCount s) (s_prefNames s);
  k_fit : zlen (s_prefNames s) = 256 /\ s_prefCount s <= s_attrCount s /\ (c_ns cf = false -> s_prefCount s = 0);
  k_rec : s_rec s = 0 \/ c_docOffset cf <= wrap32 (s_rec s);
  k_len2 : 0 <= s_len2 s < 2^31;
  k_bufs : bufsOk s }.

(** Facts about the configuration established by New and decideEncoding. *)
Hypothesis Hdo : 0 <= c_docOffset cf.
Hypothesis Hend : 0 <= c_end cf <= zlen doc.
Hypothesis Hend31 : c_end cf < 2^31.

Lemma bufs_eq s s' :
  s_vtd s' = s_vtd s -> s_l1 s' = s_l1 s -> s_l2 s' = s_l2 s -> s_l3 s' = s_l3 s -> s_l4 s' = s_l4 s -> s_l5 s' = s_l5 s ->
  bufsOk s -> bufsOk s'.
Proof. unfold bufsOk. intros -> -> -> -> -> ->. auto. Qed.

Lemma core_mv o s : Core s -> s_roff s <= o -> o <= zlen doc -> (padded -> o <= c_end cf) -> Core (mv o s).
Proof.
  intros [] H1 H2 H3. constructor; unfold mv; psimp; try assumption; try lia.
Qed.
Lemma core_adv o c s : Core s -> s_roff s <= o -> o <= zlen doc -> (padded -> o <= c_end cf) -> Core (adv o c s).
Proof. intros H1 H2 H3 H4. destruct (core_mv o s H1 H2 H3 H4). constructor; unfold adv; psimp; assumption. Qed.

(** ** Primitives *)
Lemma wp_getChar s (Q : Z -> pst -> Prop) : Core s ->
  (forall b, znth doc (s_roff s) = Some b -> s_roff s < c_end cf -> Q (b2z b) (mv (s_roff s + 1) s)) ->
  wp (getChar cf) s Q.
Proof.
  intros H HQ. unfold wp, getChar, rdGetChar, rdr. cbn [rd_end rd_off rd_doc rd_ascii].
  destruct (c_end cf <=? s_roff s) eqn:E.
  - split; [reflexivity|]. destruct H. eapply bufs_eq; [..|exact k_bufs0]; reflexivity.
  - destruct (znth doc (s_roff s)) as [b|] eqn:Eb.
    + rewrite (k_rascii s H). unfold isUTF8. pose proof (b2z_range b).
      destruct (b2z b <=? 1114111) eqn:E2; [|lia]. cbn [rd_set rd_off]. apply HQ; [reflexivity | lia].
    + destruct H. apply znth_none_iff in Eb. lia.
Qed.

Lemma wp_skipChar ch s (Q : bool -> pst -> Prop) : Core s -> ch <> 0 ->
  (forall b, znth doc (s_roff s) = Some b -> s_roff s < zlen doc -> (padded -> s_roff s <= c_end cf) ->
     (ch = b2z b -> padded -> s_roff s + 1 <= c_end cf) ->
     (ch = b2z b -> Q true (mv (s_roff s + 1) s)) /\ (ch <> b2z b -> Q false (mv (s_roff s) s))) ->
  wp (skipChar cf ch) s Q.
Proof.
  intros H Hc HQ. unfold wp, skipChar, rdSkipChar, rdr. cbn [rd_end rd_off rd_doc rd_ascii].
  destruct (znth doc (s_roff s)) as [b|] eqn:Eb.
  - pose proof (znth_range _ _ _ Eb) as R. destruct (HQ b eq_refl) as [Q1 Q2]; [lia | apply H | |].
    + intros -> P. pose proof (k_pad s H P). unfold padded in P.
      destruct (Z.eq_dec (s_roff s) (c_end cf)) as [E|]; [|lia].
      rewrite E in Eb. rewrite Eb in P. injection P as ->. cbn in Hc. lia.
    + destruct (Z.eqb_spec ch (b2z b)); cbn [rd_set rd_off]; auto.
  - right; left. split; [reflexivity|]. intros P. destruct H. apply znth_none_iff in Eb.
    specialize (k_pad0 P). unfold padded in P. apply znth_range in P. lia.
Qed.

Lemma count_cond n s : Core s -> (Z.to_nat (zlen doc - s_roff s) < n)%nat -> n <> O.
Proof. lia. Qed.

Lemma wp_nextChar s (Q : unit -> pst -> Prop) : Core s ->
  (forall b, znth doc (s_roff s) = Some b -> s_roff s < c_end cf -> Q tt (adv (s_roff s + 1) (b2z b) s)) ->
  wp (nextChar cf) s Q.
Proof. intros H HQ. apply wp_bind, wp_getChar; [exact H|]. intros b Hb Hr. apply wp_modify, HQ; assumption. Qed.

(** position [o] was reached by reading character [c] *)
Definition reached (s : pst) (o c : Z) : Prop :=
  s_roff s < o <= c_end cf /\ exists b, znth doc (o - 1) = Some b /\ c = b2z b.
Lemma core_reached s o c : Core s -> reached s o c -> Core (adv o c s).
Proof. intros H [? _]. apply core_adv; [exact H|lia..]. Qed.
Lemma core_next s b : Core s -> s_roff s < c_end cf -> Core (adv (s_roff s + 1) b s).
Proof. intros H ?. apply core_adv; [exact H|lia..]. Qed.
Lemma reached_next s b : znth doc (s_roff s) = Some b -> s_roff s < c_end cf -> reached s (s_roff s + 1) (b2z b).
Proof. intros. split; [lia|]. exists b. split; [|reflexivity]. replace (s_roff s + 1 - 1) with (s_roff s) by lia. assumption. Qed.
Lemma reached_adv s o c o' c' : s_roff s <= o' -> reached (adv o' c' s) o c -> reached s o c.
Proof. unfold reached, adv, mv; psimp. intros ? [? ?]. split; [lia | assumption]. Qed.

Lemma wp_nextCharAfterWsLoop n : forall s (Q : unit -> pst -> Prop), Core s -> zlen doc - s_roff s < Z.of_nat n ->
  (forall o c, reached s o c -> isSpaceChar c = false -> Q tt (adv o c s)) ->
  wp (nextCharAfterWsLoop cf n) s Q.
Proof.
  induction n as [|n IH]; intros s Q H Hn HQ; [destruct H; lia|].
  cbn [nextCharAfterWsLoop]. apply wp_bind, wp_nextChar; [exact H|]. intros b Hb Hr.
  apply wp_bind, wp_get. change (s_cur (adv (s_roff s + 1) (b2z b) s)) with (b2z b).
  destruct (isSpaceChar (b2z b)) eqn:E.
  - apply IH; [apply core_next; assumption | unfold adv, mv; psimp; lia |].
    intros o c Ho Hc. rewrite adv_adv. apply HQ; [|exact Hc].
    apply (reached_adv s o c (s_roff s + 1) (b2z b)); [lia | exact Ho].
  - apply wp_ret, HQ; [apply reached_next; assumption | exact E].
Qed.
Lemma fuel_ok s : Core s -> zlen doc - s_roff s < Z.of_nat (fuel cf).
Proof. intros []. unfold fuel, zlen. lia. Qed.
Lemma wp_nextCharAfterWs s (Q : unit -> pst -> Prop) : Core s ->
  (forall o c, reached s o c -> isSpaceChar c = false -> Q tt (adv o c s)) ->
  wp (nextCharAfterWs cf) s Q.
Proof. intros H. apply wp_nextCharAfterWsLoop; [exact H | apply fuel_ok, H]. Qed.

Lemma wp_fmtCustomLine o s (Q : Z * Z -> pst -> Prop) : Core s -> c_docOffset cf <= o <= zlen doc ->
  (forall l c, line_col doc (c_docOffset cf) o l c -> Q (l, c) s) -> wp (fmtCustomLine cf o) s Q.
Proof.
  intros H Ho HQ. unfold wp, fmtCustomLine. rewrite (k_enc s H). change (0 <? FormatUtf16BE) with true.
  destruct (lineScan_ok doc (Z.to_nat (o - c_docOffset cf)) (c_docOffset cf) 0 0 Hdo ltac:(lia))
    as (l & lo & -> & before & seg & after & D & L1 & L2 & -> & Hlo).
  apply HQ. exists before, seg, after. split; [exact D|]. split; [exact L1|]. split; [lia|]. split; [lia|].
  destruct Hlo as [[Hn ->]|(a & b & -> & Hb & ->)]; [left; split; [exact Hn | lia]|].
  right. exists a, b. rewrite zlen_app, zlen_cons in L2. repeat split; [exact Hb | lia].
Qed.
Lemma wp_parseErrAt {A} msg o s (Q : A -> pst -> Prop) : Core s -> c_docOffset cf <= o <= zlen doc ->
  wp (parseErrAt cf msg o) s Q.
Proof.
  intros H Ho. apply wp_bind, wp_fmtCustomLine; [exact H | exact Ho|]. intros l c Hl.
  apply wp_fail; [|apply H]. cbn [errOk]. exists o. split; [exact Ho | exact Hl].
Qed.
Lemma wp_parseErr {A} msg s (Q : A -> pst -> Prop) : Core s -> wp (parseErr cf msg) s Q.
Proof. intros H. apply (wp_parseErrAt msg (s_off s)); [exact H | destruct H; lia]. Qed.

(** Appending to one of the token or location-cache buffers. *)
Lemma wp_appendTo getb setb v s (Q : unit -> pst -> Prop) : lbOk (getb s) ->
  (forall b', lbOk b' -> b_size b' = b_size (getb s) + 1 -> Q tt (setb b' s)) -> wp (appendTo getb setb v) s Q.
Proof.
  intros (e & l & R) HQ. unfold wp, appendTo. destruct (bappend_repr e (getb s) l v R) as (b' & -> & R').
  apply HQ; [exists e, (l ++ [v]); exact R'|]. rewrite (rp_size _ _ _ R), (rp_size _ _ _ R'), zlen_app, zlen_one. reflexivity.
Qed.
Lemma wp_writeVtd t o l d s (Q : unit -> pst -> Prop) : lbOk (s_vtd s) ->
  (forall b', lbOk b' -> b_size b' = b_size (s_vtd s) + 1 -> Q tt (set_vtd b' s)) -> wp (writeVtd t o l d) s Q.
Proof. apply wp_appendTo. Qed.

(** Fields the invariant does not mention. *)
Lemma core_set_len1 v s : Core s -> Core (set_len1 v s).
Proof. intros []. constructor; psimp; assumption. Qed.
Lemma core_set_vtdDepth v s : Core s -> Core (set_vtdDepth v s).
Proof. intros []. constructor; psimp; assumption. Qed.
Lemma core_set_lastDepth v s : Core s -> Core (set_lastDepth v s).
Proof. intros []. constructor; psimp; assumption. Qed.
Lemma core_set_rootIndex v s : Core s -> Core (set_rootIndex v s).
Proof. intros []. constructor; psimp; assumption. Qed.
Lemma core_set_l1i v s : Core s -> Core (set_l1i v s).
Proof. intros []. constructor; psimp; assumption. Qed.
Lemma core_set_l2i v s : Core s -> Core (set_l2i v s).
Proof. intros []. constructor; psimp; assumption. Qed.
Lemma core_set_l3i v s : Core s -> Core (set_l3i v s).
Proof. intros []. constructor; psimp; assumption. Qed.
Lemma core_set_l4i v s : Core s -> Core (set_l4i v s).
Proof. intros []. constructor; psimp; assumption. Qed.
Lemma core_set_prefUrls v s : Core s -> Core (set_prefUrls v s).
Proof. intros []. constructor; psimp; assumption. Qed.
Lemma core_set_cur v s : Core s -> Core (set_cur v s).
Proof. intros []. constructor; psimp; assumption. Qed.
Lemma core_set_defaultNs v s : Core s -> Core (set_defaultNs v s).
Proof. intros []. constructor; psimp; assumption. Qed.
Lemma core_set_isNs v s : Core s -> Core (set_isNs v s).
Proof. intros []. constructor; psimp; assumption. Qed.
Lemma core_set_isXml v s : Core s -> Core (set_isXml v s).
Proof. intros []. constructor; psimp; assumption. Qed.
Lemma core_set_helper v s : Core s -> Core (set_helper v s).
Proof. intros []. constructor; psimp; assumption. Qed.
Lemma core_set_ns1 v s : Core s -> Core (set_ns1 v s).
Proof. intros []. constructor; psimp; assumption. Qed.
Lemma core_set_ns2 v s : Core s -> Core (set_ns2 v s).
Proof. intros []. constructor; psimp; assumption. Qed.
Lemma core_set_ns3 v s : Core s -> Core (set_ns3 v s).
Proof. intros []. constructor; psimp; assumption. Qed.
(** The other setters. *)
Lemma core_set_last v s : Core s -> 0 <= v <= s_roff s -> Core (set_last v s).
Proof. intros [] ?. constructor; psimp; assumption. Qed.
Lemma core_set_off v s : Core s -> c_docOffset cf <= v <= s_roff s -> Core (set_off v s).
Proof. intros [] ?. constructor; psimp; assumption. Qed.
Lemma core_set_depth v s : Core s -> -1 <= v <= 255 -> Core (set_depth v s).
Proof. intros [] ?. constructor; psimp; assumption. Qed.
Lemma core_set_len2 v s : Core s -> 0 <= v < 2^31 -> Core (set_len2 v s).
Proof. intros [] ?. constructor; psimp; assumption. Qed.
Lemma core_set_rec v s : Core s -> v = 0 \/ c_docOffset cf <= wrap32 v -> Core (set_rec v s).
Proof. intros [] ?. constructor; psimp; assumption. Qed.
Lemma core_set_attrCount v s : Core s -> s_prefCount s <= v <= 256 -> Core (set_attrCount v s).
Proof. intros [] ?. constructor; psimp; try assumption; [|intuition]. destruct k_attrs0 as (? & ? & ?), k_prefs0. repeat split; try assumption; lia. Qed.
Lemma core_set_prefCount v s : Core s -> 0 <= v <= s_prefCount s -> Core (set_prefCount v s).
Proof.
  intros [] ?. constructor; psimp; try assumption; [split; [lia|]; intros j e Hj; apply k_prefs0; lia|].
  destruct k_fit0 as (? & ? & F). split; [assumption|]. split; [lia|]. intros N. specialize (F N). lia.
Qed.
Lemma core_set_vtd v s : Core s -> lbOk v -> Core (set_vtd v s).
Proof. intros [] ?. constructor; psimp; try assumption. unfold bufsOk in *; psimp; intuition. Qed.
Lemma core_set_l1 v s : Core s -> lbOk v -> Core (set_l1 v s).
Proof. intros [] ?. constructor; psimp; try assumption. unfold bufsOk in *; psimp; intuition. Qed.
Lemma core_set_l2 v s : Core s -> lbOk v -> Core (set_l2 v s).
Proof. intros [] ?. constructor; psimp; try assumption. unfold bufsOk in *; psimp; intuition. Qed.
Lemma core_set_l3 v s : Core s -> lbOk v -> Core (set_l3 v s).
Proof. intros [] ?. constructor; psimp; try assumption. unfold bufsOk in *; psimp; intuition. Qed.
Lemma core_set_l4 v s : Core s -> lbOk v -> Core (set_l4 v s).
Proof. intros [] ?. constructor; psimp; try assumption. unfold bufsOk in *; psimp; intuition. Qed.
Lemma core_set_l5 v s : Core s -> lbOk v -> Core (set_l5 v s).
Proof. intros [] ?. constructor; psimp; try assumption. unfold bufsOk in *; psimp; intuition. Qed.
Lemma core_set_tags v s : Core s -> zlen v = 256 -> Forall tagok v -> Core (set_tags v s).
Proof. intros [] ? ?. constructor; psimp; try assumption. split; assumption. Qed.
Lemma core_lb s : Core s -> lbOk (s_vtd s) /\ lbOk (s_l1 s) /\ lbOk (s_l2 s) /\ lbOk (s_l3 s) /\ lbOk (s_l4 s) /\ lbOk (s_l5 s).
Proof. intros []. exact k_bufs0. Qed.

End Wp.

