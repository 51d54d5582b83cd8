(** The parser invariant is preserved by every state function, every step of the
    main loop consumes input, every reported position is right, and the panics
    that can occur are the listed ones. *)
From Verif Require Import Lib XmlChar XmlCharProofs Buffer BufferProofs Reader ParserState ParserPrim ParserProc ParserMain SpecParse ParserWp.

(** Turn the invariant of every known state into arithmetic facts. *)
Ltac facts H :=
  pose proof (k_inc _ _ H); pose proof (k_off _ _ H); pose proof (k_roff _ _ H); pose proof (k_pad _ _ H);
  pose proof (k_last _ _ H); pose proof (k_depth _ _ H); pose proof (k_len2 _ _ H);
  pose proof (proj2 (proj2 (k_attrs _ _ H))); pose proof (proj1 (k_prefs _ _ H)).
Ltac pside :=
  intros; psimp;
  try match goal with P : padded _ |- _ =>
        repeat match goal with H : padded _ -> _ |- _ => specialize (H P) end end;
  repeat match goal with H : padded _ -> _ |- _ => clear H end;
  first [assumption | lia].
Ltac ifs := repeat match goal with
  | H : context [if true then ?a else ?b] |- _ => change (if true then a else b) with a in H
  | H : context [if false then ?a else ?b] |- _ => change (if false then a else b) with b in H
  end.
Ltac core :=
  lazymatch goal with
  | |- Core _ ?s =>
      first
      [ assumption
      | lazymatch s with
        | mv _ _ => apply core_mv
        | adv _ _ _ => apply core_adv
        | set_len1 _ _ => apply core_set_len1
        | set_vtdDepth _ _ => apply core_set_vtdDepth
        | set_lastDepth _ _ => apply core_set_lastDepth
        | set_rootIndex _ _ => apply core_set_rootIndex
        | set_l1i _ _ => apply core_set_l1i
        | set_l2i _ _ => apply core_set_l2i
        | set_l3i _ _ => apply core_set_l3i
        | set_l4i _ _ => apply core_set_l4i
        | set_prefUrls _ _ => apply core_set_prefUrls
        | set_cur _ _ => apply core_set_cur
        | set_defaultNs _ _ => apply core_set_defaultNs
        | set_isNs _ _ => apply core_set_isNs
        | set_isXml _ _ => apply core_set_isXml
        | set_helper _ _ => apply core_set_helper
        | set_ns1 _ _ => apply core_set_ns1
        | set_ns2 _ _ => apply core_set_ns2
        | set_ns3 _ _ => apply core_set_ns3
        | set_last _ _ => apply core_set_last
        | set_off _ _ => apply core_set_off
        | set_depth _ _ => apply core_set_depth
        | set_len2 _ _ => apply core_set_len2
        | set_rec _ _ => apply core_set_rec
        | set_attrCount _ _ => apply core_set_attrCount
        | set_prefCount _ _ => apply core_set_prefCount
        | set_vtd _ _ => apply core_set_vtd
        | set_l1 _ _ => apply core_set_l1
        | set_l2 _ _ => apply core_set_l2
        | set_l3 _ _ => apply core_set_l3
        | set_l4 _ _ => apply core_set_l4
        | set_l5 _ _ => apply core_set_l5
        | set_tags _ _ => apply core_set_tags
        end; core ]
  | |- lbOk _ => first [assumption | solve [psimp; eapply core_lb; eassumption]]
  | |- _ => solve [pside]
  end.

Lemma znth_in {A} (l : list A) i x : znth l i = Some x -> In x l.
Proof. unfold znth. destruct ((i <? 0) || _); [discriminate|]. apply nth_error_In. Qed.
Lemma znth_of_in {A} (l : list A) x : In x l -> exists i, znth l i = Some x.
Proof.
  intros H. destruct (In_nth_error _ _ H) as [n Hn]. exists (Z.of_nat n).
  assert (n < length l)%nat by (apply nth_error_Some; congruence).
  unfold znth. destruct ((Z.of_nat n <? 0) || _) eqn:E; [unfold zlen in E; lia|]. rewrite Nat2Z.id. exact Hn.
Qed.
Lemma zupd_Forall {A} (P : A -> Prop) l l' i v : zupd l i v = Some l' -> Forall P l -> P v -> Forall P l'.
Proof.
  intros E F Hv. rewrite Forall_forall in *. intros x Hx. destruct (znth_of_in _ _ Hx) as [j Hj].
  destruct (Z.eq_dec i j) as [<-|N]; [rewrite (zupd_same _ _ _ _ E) in Hj; congruence|].
  rewrite (zupd_other _ _ _ _ _ E N) in Hj. apply F, (znth_in _ _ _ Hj).
Qed.

Section Inv.
Variable cf : cfg.
Notation doc := (c_doc cf).
Hypothesis Hdo : 0 <= c_docOffset cf.
Hypothesis Hend : 0 <= c_end cf <= zlen doc.
Hypothesis Hend31 : c_end cf < 2^31.
Notation Core := (Core cf).
Notation wp := (wp cf).

(** What scanning leaves alone. *)
Definition scan (s s' : pst) : Prop :=
  s_depth s' = s_depth s /\ s_last s' = s_last s /\ s_len1 s' = s_len1 s /\ s_len2 s' = s_len2 s /\
  s_off s' = s_roff s' /\ b_size (s_vtd s') = b_size (s_vtd s).
Definition scanc (s s' : pst) : Prop := scan s s' /\ s_cur s' = s_cur s.

Lemma wp_getChar' s (Q : Z -> pst -> Prop) : Core s ->
  (forall b s', Core s' -> scanc s s' -> s_roff s' = s_roff s + 1 /\ s_roff s' <= c_end cf -> Q (b2z b) s') ->
  wp (getChar cf) s Q.
Proof.
  intros H HQ. facts H. apply (wp_getChar cf Hend); [exact H|]. intros b Hb Hr.
  apply HQ; [core | repeat split | cbn; lia].
Qed.
Lemma wp_skipChar' ch s (Q : bool -> pst -> Prop) : Core s -> ch <> 0 ->
  (forall (b : bool) s', Core s' -> scanc s s' -> s_roff s' = s_roff s + (if b then 1 else 0) -> Q b s') ->
  wp (skipChar cf ch) s Q.
Proof.
  intros H Hc HQ. facts H. apply (wp_skipChar cf); [exact H|exact Hc|]. intros b Hb Hr Hp Hp2. split; intros E; apply HQ.
  - specialize (Hp2 E). core.
  - repeat split.
  - reflexivity.
  - core.
  - repeat split.
  - cbn. lia.
Qed.
Lemma wp_nextChar' s (Q : unit -> pst -> Prop) : Core s ->
  (forall s', Core s' -> scan s s' -> s_roff s' = s_roff s + 1 /\ s_roff s' <= c_end cf -> Q tt s') ->
  wp (nextChar cf) s Q.
Proof.
  intros H HQ. facts H. apply (wp_nextChar cf Hend); [exact H|]. intros b Hb Hr.
  apply HQ; [core | repeat split | cbn; lia].
Qed.
Lemma wp_nextCharAfterWs' s (Q : unit -> pst -> Prop) : Core s ->
  (forall s', Core s' -> scan s s' -> s_roff s < s_roff s' <= c_end cf -> Q tt s') ->
  wp (nextCharAfterWs cf) s Q.
Proof.
  intros H HQ. facts H. apply (wp_nextCharAfterWs cf Hend); [exact H|]. intros o c [Ho _] _.
  apply HQ; [core | repeat split | cbn; lia].
Qed.

Ltac sintro1 :=
  let s' := fresh "s" in let HC := fresh "HC" in let Hs := fresh "Hs" in let Hr := fresh "Hr" in
  intros s' HC Hs Hr; unfold scanc, scan in Hs; psimp_in Hs; psimp_in Hr; facts HC.
Ltac knorm :=
  repeat match goal with
  | H : ParserWp.Core _ ?s |- context [s_single ?s] => change (s_single s) with (s_single s); rewrite (k_single _ _ H)
  | H : ParserWp.Core _ ?s |- context [s_ws ?s] => change (s_ws s) with (s_ws s); rewrite (k_ws _ _ H)
  | H : ParserWp.Core _ ?s |- context [s_enc ?s] => change (s_enc s) with (s_enc s); rewrite (k_enc _ _ H)
  | H : ParserWp.Core _ ?s |- context [s_inc ?s] => change (s_inc s) with (s_inc s); rewrite (k_inc _ _ H)
  end.
Ltac step1 :=
  lazymatch goal with
  | |- ParserWp.wp _ (bind _ _) _ _ => apply wp_bind
  | |- ParserWp.wp _ (ret _) _ _ => apply wp_ret
  | |- ParserWp.wp _ (get _) _ _ => apply wp_get
  | |- ParserWp.wp _ (modify _) _ _ => apply wp_modify
  | |- ParserWp.wp _ markLast _ _ => unfold markLast
  | |- ParserWp.wp _ (andM _ _) _ _ => apply wp_andM
  | |- ParserWp.wp _ (orM _ _) _ _ => apply wp_orM
  | |- ParserWp.wp _ (parseErr _ _) _ _ => apply (wp_parseErr cf Hdo); core
  | |- ParserWp.wp _ (ParserPrim.getChar _) _ _ =>
      apply wp_getChar'; [core|]; let b := fresh "b" in intros b; sintro1
  | |- ParserWp.wp _ (ParserPrim.skipChar _ _) _ _ =>
      apply wp_skipChar'; [core| first [discriminate | lia] |]; let b := fresh "b" in intros b; sintro1
  | |- ParserWp.wp _ (ParserPrim.nextChar _) _ _ => apply wp_nextChar'; [core|]; sintro1
  | |- ParserWp.wp _ (ParserPrim.nextCharAfterWs _) _ _ => apply wp_nextCharAfterWs'; [core|]; sintro1
  | |- ParserWp.wp _ (writeVtd _ _ _ _) _ _ =>
      apply wp_writeVtd; [core|]; let b := fresh "b" in let H := fresh "Hb" in let E := fresh "Eb" in intros b H E; psimp_in E
  | |- ParserWp.wp _ (catch _ (fun e => fail (EInternal _ (Some e))) _) _ _ => apply wp_catch_wrap
  | |- ParserWp.wp _ (if ?b then _ else _) _ _ => destruct b eqn:?
  | |- if ?b then _ else _ => destruct b eqn:?
  end; psimp; try (progress knorm; psimp).
Ltac steps := repeat step1.

(** ** Primitives of common.go and process.go *)
Lemma skipCharSeq_nil s : skipCharSeq cf [] s = ROk true (mv (s_roff s) s).
Proof. reflexivity. Qed.
Lemma rdSkipCharSeq_noErr seq : forall r r' e, rdSkipCharSeq r seq <> (r', Err e).
Proof.
  induction seq as [|c t IH]; intros r r' e; cbn [rdSkipCharSeq]; [discriminate|].
  unfold rdSkipChar. destruct (znth (rd_doc r) (rd_off r)); [|discriminate].
  destruct (c =? b2z b); [apply IH | discriminate].
Qed.
Lemma skipCharSeq_cons c t s : skipCharSeq cf (c :: t) s = (b <- skipChar cf c ;; if b then skipCharSeq cf t else ret false) s.
Proof.
  unfold bind, skipCharSeq, skipChar, rdr. cbn [rdSkipCharSeq]. unfold rdSkipChar. cbn [rd_doc rd_off rd_ascii rd_end].
  destruct (znth doc (s_roff s)) as [b|]; [|reflexivity].
  destruct (c =? b2z b); [|reflexivity]. unfold rd_set. cbn [rd_off rd_doc rd_ascii rd_end]. psimp.
  match goal with |- context [rdSkipCharSeq ?r t] => destruct (rdSkipCharSeq r t) as [r' [x|e|w]] eqn:E end;
    [reflexivity | elim (rdSkipCharSeq_noErr _ _ _ _ E) | reflexivity].
Qed.
Lemma wp_skipCharSeq seq : forall s (Q : bool -> pst -> Prop), Core s -> (forall c, In c seq -> c <> 0) ->
  (forall b s', Core s' -> scanc s s' -> s_roff s <= s_roff s' -> Q b s') ->
  wp (skipCharSeq cf seq) s Q.
Proof.
  induction seq as [|c t IH]; intros s Q H Hz HQ; facts H.
  - unfold ParserWp.wp. rewrite skipCharSeq_nil. apply HQ; [core | repeat split | cbn; lia].
  - assert (Hc : c <> 0) by (apply Hz; left; reflexivity).
    unfold ParserWp.wp. rewrite skipCharSeq_cons.
    match goal with |- match ?m s with _ => _ end => change (wp m s Q) end. steps.
    + apply IH; [core | intros; apply Hz; right; assumption|]. intros b' s' H' Hs' Hr'. apply HQ; [exact H'| |lia].
      unfold scanc, scan in *. intuition congruence.
    + apply HQ; [core | unfold scanc, scan; intuition congruence | lia].
Qed.
Lemma wp_skipIgnoreCase seq : forall s (Q : bool -> pst -> Prop), Core s -> s_off s = s_roff s -> (forall c, In c seq -> c <> 0 /\ toUpper c <> 0) ->
  (forall b s', Core s' -> scanc s s' -> s_roff s <= s_roff s' -> Q b s') ->
  wp (skipCharSeqIgnoreCase cf seq) s Q.
Proof.
  induction seq as [|c t IH]; intros s Q H Ho Hz HQ; facts H; cbn [skipCharSeqIgnoreCase].
  - steps. apply HQ; [core | repeat split; exact Ho | lia].
  - destruct (Hz c (or_introl eq_refl)) as [Hc1 Hc2].
    assert (Hz' : forall c, In c t -> c <> 0 /\ toUpper c <> 0) by (intros; apply Hz; right; assumption).
    steps.
    + apply IH; [core | tauto | exact Hz' |]. intros b' s' H' Hs' Hr'. apply HQ; [exact H'| |lia].
      unfold scanc, scan in *. intuition congruence.
    + apply IH; [core | tauto | exact Hz' |]. intros b' s' H' Hs' Hr'. apply HQ; [exact H'| |lia].
      unfold scanc, scan in *. intuition congruence.
    + apply HQ; [core | unfold scanc, scan; intuition congruence | lia].
Qed.

(** Entity references; the position moves by at least one character. *)
Lemma wp_entSeq seq : forall s (Q : unit -> pst -> Prop), Core s -> s_off s = s_roff s ->
  (forall s', Core s' -> scanc s s' -> s_roff s <= s_roff s' -> Q tt s') ->
  wp (entSeq cf seq) s Q.
Proof.
  induction seq as [|c t IH]; intros s Q H Ho HQ; facts H; cbn [entSeq]; steps.
  - apply HQ; [core | repeat split; assumption | lia].
  - apply IH; [core | tauto |]. intros s' H' Hs' Hr'. apply HQ; [exact H'| |lia].
    unfold scanc, scan in *. intuition congruence.
  - apply wp_fail; [exact I | apply HC].
Qed.
Lemma wp_entHex n : forall v s (Q : Z -> pst -> Prop), Core s -> zlen doc - s_roff s < Z.of_nat n ->
  (forall v s', Core s' -> scanc s s' -> s_roff s <= s_roff s' -> Q v s') ->
  wp (entHex cf n v) s Q.
Proof.
  induction n as [|n IH]; intros v s Q H Hn HQ; facts H; [lia|]. cbn [entHex]. steps.
  1-3: apply IH; [core | lia |]; intros v' s' H' Hs' Hr'; apply HQ; [exact H'| |lia]; unfold scanc, scan in *; intuition congruence.
  - apply HQ; [core | exact Hs | lia].
  - apply wp_fail; [exact I | apply HC].
Qed.
Lemma wp_entDec n : forall c v s (Q : Z -> pst -> Prop), Core s -> s_off s = s_roff s -> zlen doc - s_roff s < Z.of_nat n ->
  (forall v s', Core s' -> scanc s s' -> s_roff s <= s_roff s' -> Q v s') ->
  wp (entDec cf n c v) s Q.
Proof.
  induction n as [|n IH]; intros c v s Q H Ho Hn HQ; facts H; [lia|]. cbn [entDec]. steps.
  - apply IH; [core | tauto | lia |]; intros v' s' H' Hs' Hr'; apply HQ; [exact H'| |lia]; unfold scanc, scan in *; intuition congruence.
  - apply HQ; [core | repeat split; assumption | lia].
  - apply wp_fail; [exact I | apply H].
Qed.
Ltac scantac := unfold scanc, scan in *; intuition congruence.
Lemma wp_entityIdentifier s (Q : Z -> pst -> Prop) : Core s ->
  (forall v s', Core s' -> scanc s s' -> s_roff s <= s_roff s' -> Q v s') ->
  wp (entityIdentifier cf) s Q.
Proof.
  intros H HQ. facts H. unfold entityIdentifier. steps.
  - apply wp_entHex; [core | apply fuel_ok; core|]. intros v s' H' Hs' Hr'. steps.
    + apply HQ; [core | scantac | lia].
    + apply wp_fail; [exact I | apply H'].
  - apply wp_entDec; [core | tauto | apply fuel_ok; core|]. intros v s' H' Hs' Hr'. steps.
    + apply HQ; [core | scantac | lia].
    + apply wp_fail; [exact I | apply H'].
  - apply wp_entSeq; [core | tauto |]. intros s' H' Hs' Hr'. steps. apply HQ; [core | scantac | lia].
  - apply wp_entSeq; [core | tauto |]. intros s' H' Hs' Hr'. steps. apply HQ; [core | scantac | lia].
  - apply wp_fail; [exact I | apply HC0].
  - apply wp_entSeq; [core | tauto |]. intros s' H' Hs' Hr'. steps. apply HQ; [core | scantac | lia].
  - apply wp_entSeq; [core | tauto |]. intros s' H' Hs' Hr'. steps. apply HQ; [core | scantac | lia].
  - apply wp_fail; [exact I | apply HC].
Qed.
Lemma wp_skipRbrLoop n : forall s (Q : unit -> pst -> Prop), Core s -> zlen doc - s_roff s < Z.of_nat n ->
  (forall s', Core s' -> scanc s s' -> s_roff s <= s_roff s' -> Q tt s') ->
  wp (skipRbrLoop cf n) s Q.
Proof.
  induction n as [|n IH]; intros s Q H Hn HQ; facts H; [lia|]. cbn [skipRbrLoop]. steps.
  - apply IH; [core | lia |]. intros s' H' Hs' Hr'. apply HQ; [core | scantac | lia].
  - apply HQ; [core | exact Hs | lia].
Qed.
Lemma wp_skipRbr s (Q : unit -> pst -> Prop) : Core s ->
  (forall s', Core s' -> scanc s s' -> s_roff s <= s_roff s' -> Q tt s') ->
  wp (skipRbr cf) s Q.
Proof. intros H. apply wp_skipRbrLoop; [exact H | apply fuel_ok; exact H]. Qed.
Lemma wp_handleOther c s (Q : unit -> pst -> Prop) : Core s ->
  (forall s', Core s' -> scanc s s' -> s_roff s <= s_roff s' -> Q tt s') ->
  wp (handleOtherTextChar cf c) s Q.
Proof.
  intros H HQ. facts H. unfold handleOtherTextChar. steps.
  - apply wp_entityIdentifier; [core|]. intros v s' H' Hs' Hr'. steps. apply HQ; [core | scantac | lia].
  - apply wp_skipRbr; [core|]. intros s' H' Hs' Hr'. facts H'. steps. apply HQ; [core | scantac | lia].
Qed.
Lemma wp_validateSeqLoop name seq : forall s (Q : unit -> pst -> Prop), Core s -> s_off s = s_roff s ->
  (forall s', Core s' -> scanc s s' -> s_roff s <= s_roff s' -> Q tt s') ->
  wp (validateSeqLoop cf name seq) s Q.
Proof.
  induction seq as [|c t IH]; intros s Q H Ho HQ; facts H; cbn [validateSeqLoop]; steps.
  - apply HQ; [core | repeat split; assumption | lia].
  - apply IH; [core | tauto |]. intros s' H' Hs' Hr'. apply HQ; [exact H'| scantac |lia].
Qed.
Lemma wp_validateSeq name s (Q : unit -> pst -> Prop) : Core s -> s_off s = s_roff s ->
  (forall s', Core s' -> scanc s s' -> s_roff s <= s_roff s' -> 0 <= s_depth s -> Q tt s') ->
  wp (validateSeq cf name) s Q.
Proof.
  intros H Ho HQ. unfold validateSeq. steps. apply wp_validateSeqLoop; [core | exact Ho |]. intros s' H' Hs' Hr'. facts H'.
  steps. apply HQ; [core | exact Hs' | lia |]. destruct Hs' as [[E _] _]. lia.
Qed.
(** The state chosen from the next character is LtSeen or Text. *)
Definition ltOrText (ps : pstate) : Prop := ps = StLtSeen \/ ps = StText.
Lemma wp_getNext c s (Q : pstate -> pst -> Prop) : Core s -> s_off s = s_roff s ->
  (forall ps s', Core s' -> scanc s s' -> s_roff s <= s_roff s' -> ltOrText ps -> Q ps s') ->
  wp (getNextProcessStateFromChar cf c) s Q.
Proof.
  intros H Ho HQ. facts H. unfold getNextProcessStateFromChar. steps.
  - apply HQ; [core | repeat split; assumption | lia | left; reflexivity].
  - apply wp_entityIdentifier; [core|]. intros v s' H' Hs' Hr'. steps. apply HQ; [core | scantac | lia | right; reflexivity].
  - apply wp_skipRbr; [core|]. intros s' H' Hs' Hr'. facts H'. steps. apply HQ; [core | scantac | lia | right; reflexivity].
  - apply HQ; [core | repeat split; assumption | lia | right; reflexivity].
Qed.

(** ** Writing tokens *)
Lemma wp_writeTextLoop n : forall t r j d s (Q : unit -> pst -> Prop), lbOk (s_vtd s) -> j <= (Z.of_nat n - 1) * maxTokenLength -> n <> O ->
  (forall b', lbOk b' -> b_size b' <= b_size (s_vtd s) + Z.max 1 j -> Q tt (set_vtd b' s)) -> wp (writeVtdTextLoop n t r j d) s Q.
Proof.
  induction n as [|n IH]; intros t r j d s Q Hb Hj Hn HQ; [congruence|]. cbn [writeVtdTextLoop].
  destruct (maxTokenLength <? j) eqn:E.
  - apply wp_bind, wp_writeVtd; [exact Hb|]. intros b' Hb' Eb'.
    apply IH; [psimp; exact Hb' | unfold maxTokenLength in *; nia | unfold maxTokenLength in *; nia |].
    intros b2 Hb2 Eb2. psimp_in Eb2. apply (HQ b2 Hb2). unfold maxTokenLength in *. lia.
  - apply wp_writeVtd; [exact Hb|]. intros b' Hb' Eb'. apply HQ; [exact Hb' | lia].
Qed.
Lemma wp_writeVtdText t o l d s (Q : unit -> pst -> Prop) : lbOk (s_vtd s) ->
  (forall b', lbOk b' -> b_size b' <= b_size (s_vtd s) + Z.max 1 l -> Q tt (set_vtd b' s)) -> wp (writeVtdText t o l d) s Q.
Proof.
  intros Hb HQ. unfold writeVtdText. destruct (maxTokenLength <? l) eqn:E.
  - apply wp_writeTextLoop; [exact Hb | | discriminate | exact HQ]. unfold maxTokenLength in *. 
    replace (Z.of_nat (S (Z.to_nat (l / (2^20-1) + 1))) - 1) with (l / (2^20-1) + 1) by lia. lia.
  - apply wp_writeVtd; [exact Hb|]. intros b' Hb' Eb'. apply HQ; [exact Hb' | lia].
Qed.
Lemma wp_writeTextHere t s (Q : unit -> pst -> Prop) : Core s ->
  (forall b', lbOk b' -> b_size b' <= b_size (s_vtd s) + Z.max 1 (s_len1 s) -> Q tt (set_vtd b' s)) -> wp (writeTextHere t) s Q.
Proof. intros H HQ. unfold writeTextHere. steps. apply wp_writeVtdText; [core | exact HQ]. Qed.
Lemma wp_writeCheck t msg s (Q : unit -> pst -> Prop) : Core s ->
  (forall b', lbOk b' -> b_size b' = b_size (s_vtd s) + 1 -> Q tt (set_vtd b' s)) -> wp (writeVtdWithLengthCheck cf t msg) s Q.
Proof. intros H HQ. unfold writeVtdWithLengthCheck. steps. apply HQ; assumption. Qed.
Lemma wp_writeDec t l s (Q : unit -> pst -> Prop) : Core s ->
  (forall b', lbOk b' -> b_size b' = b_size (s_vtd s) + 1 -> Q tt (set_vtd b' s)) -> wp (writeDec t l) s Q.
Proof. intros H HQ. unfold writeDec. steps. apply HQ; assumption. Qed.
Lemma wp_emptyPiVal s (Q : unit -> pst -> Prop) : Core s ->
  (forall b', lbOk b' -> b_size b' = b_size (s_vtd s) + 1 -> Q tt (set_vtd b' s)) -> wp writeEmptyPiVal s Q.
Proof. intros H HQ. unfold writeEmptyPiVal. steps. apply HQ; assumption. Qed.
Lemma wp_getPrevOffset s (Q : Z -> pst -> Prop) : Core s -> Q (s_off s - 1) s -> wp (getPrevOffset cf) s Q.
Proof. intros H HQ. unfold getPrevOffset. steps; first [discriminate | exact HQ]. Qed.

(** ** The invariant of each parser state *)
Definition Inv (ps : pstate) (s : pst) : Prop :=
  Core s /\
  match ps with
  | StTagStart => 0 <= s_depth s /\ s_off s = s_roff s /\ c_docOffset cf <= s_last s < s_off s /\ s_roff s <= c_end cf
  | StAttrName => 0 <= s_depth s <= 254 /\ s_off s = s_roff s /\ s_last s = s_off s - 1 /\ c_docOffset cf <= s_last s /\
                  s_roff s <= c_end cf /\ isNameStartChar (s_cur s) = true
  | StAttrVal => 0 <= s_depth s <= 254 /\ s_off s = s_roff s /\ c_docOffset cf <= s_last s
  | StTagEnd | StDecAttrName | StCdata | StStartComment | StEndComment | StDocType | StPiEnd | StPiVal | StDocEnd =>
      s_depth s <= 254 /\ s_off s = s_roff s
  | _ => s_depth s <= 254
  end.
Definition post (s0 : pst) (ps : pstate) (s : pst) : Prop := Inv ps s /\ s_roff s0 < s_roff s /\
  match ps with StDocEnd => s_roff s <= c_end cf | StPiEnd => False | _ => True end.
Definition postEnd (s0 : pst) (ps : pstate) (s : pst) : Prop := Inv ps s /\ s_roff s0 < s_roff s /\
  match ps with StDocEnd => False | _ => True end.
(** process_pi_end.go: not past the end of the window, except over a '>' directly behind it. *)
Definition upTo (s : pst) : Prop := s_roff s <= c_end cf \/ (s_roff s = c_end cf + 1 /\ znth doc (c_end cf) = Some x3e).
Definition postPi (s0 : pst) (ps : pstate) (s : pst) : Prop := Inv ps s /\ s_roff s0 < s_roff s /\ upTo s /\ ps = StDocEnd.

(** How many tokens there can be in front of each state: every token takes at
    least one byte of the document, starting from a bound of [B] tokens. *)
Variable B : Z.
Definition room (ps : pstate) (s : pst) : Prop :=
  match ps with
  | StDocStart => b_size (s_vtd s) <= s_roff s - c_docOffset cf + B
  | StText => b_size (s_vtd s) + 1 <= s_last s - c_docOffset cf + B /\ b_size (s_vtd s) + 2 <= s_roff s - c_docOffset cf + B
  | StStartComment | StCdata => b_size (s_vtd s) + 1 <= s_last s - c_docOffset cf + B
  | StTagStart | StAttrName | StAttrVal | StPiEnd => b_size (s_vtd s) + 2 <= s_roff s - c_docOffset cf + B
  | _ => b_size (s_vtd s) + 1 <= s_roff s - c_docOffset cf + B
  end.
Definition postR (s0 : pst) (ps : pstate) (s : pst) : Prop := post s0 ps s /\ room ps s.

Ltac fin0 :=
  split; [split; [core | psimp; repeat match goal with |- _ /\ _ => split end; first [lia | assumption | idtac]] | split; [psimp; first [lia | idtac] | first [exact I | psimp; lia | idtac]]].
Ltac froom := unfold room; ifs; change (Z.shiftl 1 1) with 2 in *; psimp; first [lia | split; lia | idtac].
Ltac fin := lazymatch goal with |- postR _ _ _ => split; [fin0 | froom] | |- _ /\ room _ _ => split; [fin0 | froom] | |- _ => fin0 end.

Lemma wp_elementTail s0 s : Core s -> s_depth s <= 254 -> s_off s = s_roff s -> s_roff s0 < s_roff s -> s_roff s <= c_end cf ->
  b_size (s_vtd s) + 2 <= s_roff s - c_docOffset cf + B -> wp (processElementTail cf) s (postR s0).
Proof.
  intros H Hd Ho Hr0 Hr1 Hn. facts H. unfold processElementTail. steps; try fin.
  - apply wp_writeTextHere; [core|]. intros b' Hb' Eb'. psimp_in Eb'. steps. fin.
  - apply wp_handleOther; [core|]. intros s' H' Hs' Hr'. steps.
    unfold scanc, scan in Hs'. psimp_in Hs'. fin.
Qed.

Lemma wp_finLt s0 s ps : Core s -> s_depth s <= 254 -> s_roff s0 < s_roff s -> ltOrText ps ->
  b_size (s_vtd s) + 1 <= s_last s - c_docOffset cf + B -> s_last s < s_roff s -> postR s0 ps s.
Proof. intros H Hd Hr [-> | ->] Hn Hl; fin. Qed.

(** The tail shared by comments, CDATA and PIs: mark, skip white space, choose
    the next state. *)
Lemma wp_afterMarkup s0 s : Core s -> s_depth s <= 254 -> s_off s = s_roff s -> s_roff s0 <= s_roff s ->
  b_size (s_vtd s) + 1 <= s_roff s - c_docOffset cf + B ->
  wp (markLast ;;; nextCharAfterWs cf ;;; c <- get s_cur ;; getNextProcessStateFromChar cf c) s (postR s0).
Proof.
  intros H Hd Ho Hr0 Hn. facts H. steps. apply wp_getNext; [core | tauto |].
  intros ps s' H' Hs' Hr' Hp. unfold scanc, scan in Hs'. apply wp_finLt; [core | lia | lia | exact Hp | lia | lia].
Qed.

(** process_text.go *)
Lemma wp_textLoop n : forall s (Q : unit -> pst -> Prop), Core s -> zlen doc - s_roff s < Z.of_nat n ->
  (forall s', Core s' -> scan s s' -> s_roff s < s_roff s' -> Q tt s') ->
  wp (textLoop cf n) s Q.
Proof.
  induction n as [|n IH]; intros s Q H Hn HQ; facts H; [lia|]. cbn [textLoop]. steps.
  - apply IH; [core | lia |]. intros s' H' Hs' Hr'. apply HQ; [core | scantac | lia].
  - apply HQ; [core | scantac | lia].
  - apply wp_handleOther; [core|]. intros s1 H1' Hs1 Hr1. 
    apply IH; [core | lia |]. intros s' H' Hs' Hr'. apply HQ; [core | scantac | lia].
Qed.
Lemma wp_processText s : Inv StText s -> room StText s -> wp (processText cf) s (postR s).
Proof.
  intros [H Hd] Hn. unfold room in Hn. facts H. unfold processText. steps.
  apply wp_textLoop; [core | apply fuel_ok; exact H|]. intros s' H' Hs' Hr'. unfold scan in Hs'. facts H'. steps.
  apply wp_writeTextHere; [core|]. intros b' Hb' Eb'. psimp_in Eb'. steps. fin.
Qed.

(** process_cdata.go *)
Lemma wp_cdataLoop n : forall s (Q : unit -> pst -> Prop), Core s -> zlen doc - s_roff s < Z.of_nat n ->
  (forall s', Core s' -> scan s s' -> s_roff s < s_roff s' -> Q tt s') ->
  wp (cdataLoop cf n) s Q.
Proof.
  induction n as [|n IH]; intros s Q H Hn HQ; facts H; [lia|]. cbn [cdataLoop]. steps.
  - apply wp_skipRbr; [core|]. intros s1 H1' Hs1 Hr1. facts H1'. steps.
    + apply HQ; [core | scantac | lia].
    + apply IH; [core | lia |]. intros s' H' Hs' Hr'. apply HQ; [core | scantac | lia].
  - apply IH; [core | lia |]. intros s' H' Hs' Hr'. apply HQ; [core | scantac | lia].
Qed.
Lemma wp_processCdata s : Inv StCdata s -> room StCdata s -> wp (processCdata cf) s (postR s).
Proof.
  intros [H Hd] Hn. unfold room in Hn. facts H. unfold processCdata. steps.
  apply wp_cdataLoop; [core | apply fuel_ok; exact H|]. intros s' H' Hs' Hr'. unfold scan in Hs'. facts H'.
  apply wp_bind, wp_get. apply wp_bind, wp_modify. apply wp_bind. 
  apply wp_writeTextHere; [core|]. intros b' Hb' Eb'. psimp_in Eb'. change (s_inc s') with (s_inc s') in Eb'. rewrite (k_inc _ _ H') in Eb'. change (Z.shiftl 1 1) with 2 in Eb'. apply wp_afterMarkup; [core | psimp; lia..].
Qed.

(** process_start_comment.go, process_end_comment.go *)
Lemma wp_commentLoop n : forall s (Q : unit -> pst -> Prop), Core s -> zlen doc - s_roff s < Z.of_nat n ->
  (forall s', Core s' -> s_depth s' = s_depth s -> s_off s' = s_roff s' -> s_roff s < s_roff s' -> s_cur s' = 45 ->
    s_last s' = s_last s -> s_len1 s' = s_roff s' - s_last s - 2 -> b_size (s_vtd s') = b_size (s_vtd s) -> Q tt s') ->
  wp (commentLoop cf n) s Q.
Proof.
  induction n as [|n IH]; intros s Q H Hn HQ; facts H; [lia|]. cbn [commentLoop]. steps.
  - apply HQ; [core | ifs; try change (Z.shiftl 1 1) with 2; psimp; lia..].
  - apply IH; [core | lia |]. intros s' H' Hs' Hr' ? ? ? ? ?. apply HQ; [core | lia..].
  - apply IH; [core | lia |]. intros s' H' Hs' Hr' ? ? ? ? ?. apply HQ; [core | lia..].
Qed.
Lemma wp_processStartComment s : Inv StStartComment s -> room StStartComment s -> wp (processStartComment cf) s (postR s).
Proof.
  intros [H Hd] Hn. unfold room in Hn. facts H. unfold processStartComment. steps.
  apply wp_commentLoop; [core | apply fuel_ok; exact H|]. intros s' H' Hs' Ho' Hr' Hc' Hl' Hn1 Hv'. facts H'.
  apply wp_bind, wp_nextChar'; [core|]. sintro1. apply wp_bind, wp_get. psimp. step1; [steps|]. apply wp_bind.
  apply wp_writeTextHere; [core|]. intros b' Hb' Eb'. psimp_in Eb'. apply wp_afterMarkup; [core | psimp; lia..].
Qed.
Lemma wp_processEndComment s : Inv StEndComment s -> room StEndComment s -> wp (processEndComment cf) s (postR s).
Proof.
  intros [H Hd] Hn. unfold room in Hn. facts H. unfold processEndComment. steps.
  apply wp_commentLoop; [core | apply fuel_ok; exact H|]. intros s' H' Hs' Ho' Hr' Hc' Hl' Hn1 Hv'. facts H'. steps. lia.
Qed.

(** process_doc_end.go *)
Lemma wp_processDocEnd s : Inv StDocEnd s -> room StDocEnd s -> wp (processDocEnd cf) s (fun ps s' => postEnd s ps s' /\ room ps s').
Proof.
  intros [H Hd] Hn. unfold room in Hn. facts H. unfold processDocEnd. steps; try fin.
  apply wp_skipCharSeq; [core | cbn; intuition lia |]. intros b' s' H' Hs' Hr'. unfold scanc, scan in Hs'. facts H'. steps. fin.
Qed.

(** process_doc_start.go: here the error of nextCharAfterWs is dropped, so the
    state it leaves matters. *)
Lemma nextWs_total n : forall s, Core s -> zlen doc - s_roff s < Z.of_nat n ->
  match nextCharAfterWsLoop cf n s with
  | ROk _ s' => Core s' /\ s_depth s' = s_depth s /\ s_roff s < s_roff s' /\ b_size (s_vtd s') = b_size (s_vtd s)
  | RErr _ s' => Core s' /\ s_depth s' = s_depth s /\ s_roff s <= s_roff s' /\ b_size (s_vtd s') = b_size (s_vtd s)
  | _ => False
  end.
Proof.
  induction n as [|n IH]; intros s H Hn; facts H; [lia|]. cbn [nextCharAfterWsLoop].
  unfold bind at 1, nextChar, bind at 1, getChar, rdGetChar, rdr. cbn [rd_end rd_off rd_doc rd_ascii].
  destruct (c_end cf <=? s_roff s) eqn:E.
  - split; [|split; [reflexivity | split; [apply Z.le_refl | reflexivity]]]. destruct H. constructor; psimp; assumption.
  - destruct (znth doc (s_roff s)) as [b|] eqn:Eb; [|apply znth_none_iff in Eb; lia].
    rewrite (k_rascii _ s H). unfold isUTF8. pose proof (b2z_range b).
    destruct (b2z b <=? 1114111) eqn:E2; [|lia]. cbn [rd_set rd_off]. unfold modify.
    set (s1 := set_cur _ _).
    assert (H1' : Core s1) by (apply (core_adv cf (s_roff s + 1) (b2z b) s H); lia).
    assert (s_roff s1 = s_roff s + 1) by reflexivity. assert (s_depth s1 = s_depth s) by reflexivity. assert (b_size (s_vtd s1) = b_size (s_vtd s)) by reflexivity.
    clearbody s1. unfold bind, get. match goal with |- context [isSpaceChar ?x] => destruct (isSpaceChar x) end.
    + specialize (IH s1 H1' ltac:(lia)). revert IH. destruct (nextCharAfterWsLoop cf n s1); intros IH; try contradiction; intuition lia.
    + split; [exact H1' | lia].
Qed.
Lemma wp_processDocStart s : Inv StDocStart s -> room StDocStart s -> wp (processDocStart cf) s (postR s).
Proof.
  intros [H Hd] Hn. unfold room in Hn. facts H. unfold processDocStart, skipXmlDecl, skipOneSpace. steps; try fin.
  apply wp_catch. unfold nextCharAfterWs.
  pose proof (nextWs_total (fuel cf) s0 HC (fuel_ok _ _ HC)) as W.
  revert W. destruct (nextCharAfterWsLoop cf (fuel cf) s0); intros W; try contradiction; destruct W as (W1 & W2 & W3 & W4); steps; fin.
Qed.

(** process_doc_type.go *)
Lemma wp_docTypeLoop n : forall z s (Q : unit -> pst -> Prop), Core s -> zlen doc - s_roff s < Z.of_nat n ->
  (forall s', Core s' -> scan s s' -> s_roff s < s_roff s' -> Q tt s') ->
  wp (docTypeLoop cf n z) s Q.
Proof.
  induction n as [|n IH]; intros z s Q H Hn HQ; facts H; [lia|]. cbn [docTypeLoop]. steps.
  - apply HQ; [core | scantac | lia].
  - apply IH; [core | lia |]. intros s' H' Hs' Hr'. apply HQ; [core | scantac | lia].
Qed.
Lemma wp_processDocType s : Inv StDocType s -> room StDocType s -> wp (processDocType cf) s (postR s).
Proof.
  intros [H Hd] Hn. unfold room in Hn. facts H. unfold processDocType. steps.
  apply wp_docTypeLoop; [core | apply fuel_ok; exact H|]. intros s' H' Hs' Hr'. unfold scan in Hs'. facts H'. steps.
  apply wp_writeCheck; [core|]. intros b' Hb' Eb'. psimp_in Eb'. steps. fin.
Qed.

(** process_pi_tag.go, process_pi_val.go, process_pi_end.go *)
Lemma wp_piNameLoop n : forall s (Q : unit -> pst -> Prop), Core s -> zlen doc - s_roff s < Z.of_nat n ->
  (forall s', Core s' -> scan s s' -> s_roff s < s_roff s' -> Q tt s') ->
  wp (piNameLoop cf n) s Q.
Proof.
  induction n as [|n IH]; intros s Q H Hn HQ; facts H; [lia|]. cbn [piNameLoop]. steps.
  - apply IH; [core | lia |]. intros s' H' Hs' Hr'. apply HQ; [core | scantac | lia].
  - apply HQ; [core | scantac | lia].
Qed.
Lemma wp_processPiTag s : Inv StPiTag s -> room StPiTag s -> wp (processPiTag cf) s (postR s).
Proof.
  intros [H Hd] Hn. unfold room in Hn. facts H. unfold processPiTag. steps.
  apply wp_piNameLoop; [core | apply fuel_ok; exact H|]. intros s' H' Hs' Hr'. unfold scan in Hs'. facts H'. steps.
  apply wp_writeCheck; [core|]. intros b' Hb' Eb'. psimp_in Eb'. steps; [|fin].
  apply wp_emptyPiVal; [core|]. intros b2 Hb2 Eb2. psimp_in Eb2. step1. step1. step1; [|steps]. apply wp_afterMarkup; [core | psimp; lia..].
Qed.
Lemma wp_piValLoop n : forall s (Q : unit -> pst -> Prop), Core s -> zlen doc - s_roff s < Z.of_nat n ->
  (forall s', Core s' -> scan s s' -> s_roff s < s_roff s' -> Q tt s') ->
  wp (piValLoop cf n) s Q.
Proof.
  induction n as [|n IH]; intros s Q H Hn HQ; facts H; [lia|]. cbn [piValLoop]. steps.
  - apply HQ; [core | scantac | lia].
  - apply IH; [core | lia |]. intros s' H' Hs' Hr'. apply HQ; [core | scantac | lia].
  - apply IH; [core | lia |]. intros s' H' Hs' Hr'. apply HQ; [core | scantac | lia].
Qed.
Lemma wp_processPiVal s : Inv StPiVal s -> room StPiVal s -> wp (processPiVal cf) s (postR s).
Proof.
  intros [H Hd] Hn. unfold room in Hn. facts H. unfold processPiVal. steps.
  apply wp_piValLoop; [core | apply fuel_ok; core|]. intros s' H' Hs' Hr'. unfold scan in Hs'. psimp_in Hs'. psimp_in Hr'. facts H'. steps.
  apply wp_writeCheck; [core|]. intros b' Hb' Eb'. psimp_in Eb'. apply wp_afterMarkup; [core | psimp; lia..].
Qed.
Lemma wp_piEndNameLoop n : forall s (Q : unit -> pst -> Prop), Core s -> s_off s = s_roff s -> zlen doc - s_roff s < Z.of_nat n -> isNameChar (s_cur s) = true \/ s_roff s <= c_end cf ->
  (forall s', Core s' -> scan s s' -> s_roff s <= s_roff s' -> s_roff s' <= c_end cf -> Q tt s') ->
  wp (piEndNameLoop cf n) s Q.
Proof.
  induction n as [|n IH]; intros s Q H Ho Hn HL HQ; facts H; [lia|]. cbn [piEndNameLoop]. steps.
  - apply IH; [core | tauto | lia | right; lia |]. intros s' H' Hs' Hr' Hr2. apply HQ; [core | scantac | lia | lia].
  - destruct HL as [HL|HL]; [congruence|]. apply HQ; [core | scantac | lia | lia].
Qed.
Lemma wp_piEndValLoop n : forall s (Q : unit -> pst -> Prop), Core s -> zlen doc - s_roff s < Z.of_nat n -> s_roff s <= c_end cf ->
  (forall s', Core s' -> scan s s' -> s_roff s <= s_roff s' -> upTo s' -> Q tt s') ->
  wp (piEndValLoop cf n) s Q.
Proof.
  induction n as [|n IH]; intros s Q H Hn HL HQ; facts H; [lia|]. cbn [piEndValLoop]. do 7 step1.
  - apply wp_skipChar; [core | discriminate |]. intros b Hb Hz Hp Hp'. split; intros Eb.
    + steps. apply HQ; [core | scantac | unfold mv; psimp; lia |]. unfold upTo, mv. psimp.
      destruct (Z.eq_dec (s_roff s) (c_end cf)) as [E|]; [right | left; lia]. rewrite <- E. split; [reflexivity|].
      rewrite Hb. f_equal. apply b2z_inj. rewrite <- Eb. reflexivity.
    + steps. unfold mv in *. psimp_in Hr. psimp_in Hs.
      apply IH; [core | lia | lia |]. intros s' H' Hs' Hr' Hr2. apply HQ; [core | scantac | lia | exact Hr2].
  - steps. apply IH; [core | lia | lia |]. intros s' H' Hs' Hr' Hr2. apply HQ; [core | scantac | lia | exact Hr2].
Qed.
Lemma nameStart_name c : isNameStartChar c = true -> isNameChar c = true.
Proof. pose proof (isNameStartChar_spec c) as H. pose proof (isNameChar_spec c) as H0. rewrite H, H0. intros; left; assumption. Qed.
Lemma wp_processPiEnd_tail s0 s : Core s -> s_depth s <= 254 -> s_off s = s_roff s -> s_roff s0 < s_roff s -> isNameChar (s_cur s) = true \/ s_roff s <= c_end cf ->
  b_size (s_vtd s) + 3 <= s_roff s - c_docOffset cf + B ->
  wp (piEndNameLoop cf (fuel cf) ;;;
    s <- get (fun s => s) ;;
    modify (set_len1 (s_off s - s_last s - s_inc s)) ;;;
    writeVtdWithLengthCheck cf TokPiName "PI name too long (>0xFFFF)" ;;;
    markLast ;;;
    c <- get s_cur ;;
    if isSpaceChar c then
      nextCharAfterWs cf ;;;
      piEndValLoop cf (fuel cf) ;;;
      s <- get (fun s => s) ;;
      modify (set_len1 (s_off s - s_last s - Z.shiftl (s_inc s) 1)) ;;;
      writeVtdWithLengthCheck cf TokPiVal "PI value too long (>0xFFFF)" ;;;
      ret StDocEnd
    else
      writeEmptyPiVal ;;;
      bad <- orM (ret (negb (c =? CH_QM))) (skipChar cf CH_GT) ;;
      if bad then parseErr cf "invalid termination sequence" else ret StDocEnd) s (fun ps s' => postPi s0 ps s' /\ room ps s').
Proof.
  intros H Hd Ho Hr0 Hr1 Hn. facts H. steps.
  apply wp_piEndNameLoop; [core | tauto | apply fuel_ok; core | exact Hr1|]. intros s' H' Hs' Hr' Hrr. unfold scan in Hs'. facts H'. steps.
  apply wp_writeCheck; [core|]. intros b' Hb' Eb'. psimp_in Eb'. steps.
  - apply wp_piEndValLoop; [core | apply fuel_ok; core | lia |]. intros s2 H2' Hs2 Hr2 Hr3. unfold scan in Hs2. facts H2'. steps.
    apply wp_writeCheck; [core|]. intros b2 Hb2 Eb2. psimp_in Eb2. steps. fin. split; [exact Hr3 | reflexivity].
  - apply wp_emptyPiVal; [core|]. intros b2 Hb2 Eb2. psimp_in Eb2. steps. fin. split; [left; psimp; lia | reflexivity].
Qed.
Lemma wp_processPiEnd s : Inv StPiEnd s -> room StPiEnd s -> wp (processPiEnd cf) s (fun ps s' => postPi s ps s' /\ room ps s').
Proof.
  intros [H Hd] Hn. unfold room in Hn. facts H. unfold processPiEnd, isXmlTarget. do 2 step1. do 3 step1; [steps|].
  assert (T : forall s1, Core s1 -> s_depth s1 <= 254 -> s_off s1 = s_roff s1 -> s_roff s < s_roff s1 -> isNameChar (s_cur s1) = true \/ s_roff s1 <= c_end cf -> b_size (s_vtd s1) + 3 <= s_roff s1 - c_docOffset cf + B -> _) by exact (fun s1 => wp_processPiEnd_tail s s1).
  repeat (first [apply T; [core | lia | lia | lia | | lia] | step1]).
  all: try (right; lia).
  all: left; match goal with |- isNameChar ?c = true => replace c with (s_cur s0) by lia end.
  all: apply nameStart_name; match goal with X : negb (isNameStartChar _) = false |- _ => apply negb_false_iff in X; exact X end.
Qed.

(** process_lt_seen.go *)
Lemma wp_processExSeen s0 s : Core s -> s_depth s <= 254 -> s_off s = s_roff s -> s_roff s0 <= s_roff s ->
  b_size (s_vtd s) + 1 <= s_roff s - c_docOffset cf + B -> wp (processExSeen cf) s (postR s0).
Proof.
  intros H Hd Ho Hr Hn. facts H. unfold processExSeen. steps; try fin.
  - apply wp_validateSeq; [core | tauto |]. intros s' H' Hs' Hr' Hd'. unfold scanc, scan in Hs'. facts H'. steps. fin.
  - apply wp_validateSeq; [core | tauto |]. intros s' H' Hs' Hr' Hd'. unfold scanc, scan in Hs'. facts H'. steps. fin.
Qed.
Lemma wp_processQmSeen s0 s : Core s -> s_depth s <= 254 -> s_off s = s_roff s -> s_roff s0 <= s_roff s ->
  b_size (s_vtd s) + 1 <= s_roff s - c_docOffset cf + B -> wp (processQmSeen cf) s (postR s0).
Proof.
  intros H Hd Ho Hr Hn. facts H. unfold processQmSeen, isXmlTarget. steps; try fin.
  all: apply wp_getPrevOffset; [core|]; steps; fin.
Qed.
Lemma wp_processLtSeen s : Inv StLtSeen s -> room StLtSeen s -> wp (processLtSeen cf) s (postR s).
Proof.
  intros [H Hd] Hn. unfold room in Hn. facts H. unfold processLtSeen. steps; try fin.
  - apply wp_processExSeen; [core | lia..].
  - apply wp_processQmSeen; [core | lia..].
Qed.

(** process_end_tag.go *)
Lemma wp_endTagCompare n : forall a b s (Q : bool -> pst -> Prop),
  0 <= a -> a + Z.of_nat n <= zlen doc -> 0 <= b -> b + Z.of_nat n <= zlen doc ->
  (forall x, Q x s) -> wp (endTagCompare cf n a b) s Q.
Proof.
  induction n as [|n IH]; intros a b s Q H1 H2 H3 H4 HQ; cbn [endTagCompare]; [apply wp_ret, HQ|].
  assert (exists x, znth doc a = Some x) as [x Hx] by (apply znth_some_iff; lia).
  assert (exists y, znth doc b = Some y) as [y Hy] by (apply znth_some_iff; lia).
  apply wp_bind. unfold ParserWp.wp at 1, idx. rewrite Hx. apply wp_bind. unfold ParserWp.wp at 1, idx. rewrite Hy.
  step1; [|apply wp_ret, HQ]. apply IH; [lia..|exact HQ].
Qed.
Lemma wp_processEndTag s : Inv StTagEnd s -> room StTagEnd s -> wp (processEndTag cf) s (postR s).
Proof.
  intros [H [Hd Ho]] Hn. unfold room in Hn. facts H. unfold processEndTag. steps.
  destruct (znth (s_tags s) (s_depth s)) as [t|] eqn:Et; [|apply wp_panics; right; right; left; reflexivity].
  pose proof (proj2 (k_tags _ _ H)) as FT. rewrite Forall_forall in FT.
  pose proof (znth_range _ _ _ Et) as RT.   destruct (FT t (znth_in _ _ _ Et)) as (T1 & T2 & T3).
  apply wp_bind. unfold ParserWp.wp at 1, setOffset. steps.
  - apply wp_fail; [reflexivity | ]. destruct H. eapply bufs_eq; [..|exact k_bufs]; reflexivity.
  - set (s1 := set_off _ _) in *.
    assert (H' : Core s1).
    { subst s1. destruct H. constructor; psimp; try assumption; try lia. }
    assert (s_roff s1 = s_off s + wrap32 (Z.shiftr t 32)) by reflexivity.
    assert (s_depth s1 = s_depth s) by reflexivity. assert (s_off s1 = s_roff s1) by reflexivity.
    assert (b_size (s_vtd s1) = b_size (s_vtd s)) by reflexivity.
    clearbody s1. facts H'.
    apply wp_endTagCompare; [lia..|]. intros x. steps; try fin.
    apply wp_handleOther; [core|]. intros s' H2' Hs' Hr'. unfold scanc, scan in Hs'. steps. fin.
Qed.
End Inv.
