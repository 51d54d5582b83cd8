(** The invariant through start tags, attributes and the XML declaration, then
    through the main loop. *)
From Verif Require Import Lib XmlChar XmlCharProofs Buffer BufferProofs Reader TokenProofs ParserState ParserPrim ParserProc ParserMain SpecParse ParserWp ParserInv ParserInvNs.

Ltac stepx1 :=
  lazymatch goal with
  | |- wp _ (ParserPrim.skipCharSeq _ _) _ _ =>
      apply wp_skipCharSeq; [assumption|core| cbn; intuition lia |]; let b := fresh "b" in intros b; sintro1
  | |- wp _ (ParserPrim.skipCharSeqIgnoreCase _ _) _ _ =>
      apply wp_skipIgnoreCase; [assumption|core|psimp; first [assumption | tauto | lia] |
        let c := fresh "c" in let Hc := fresh "Hc" in intros c Hc; cbn in Hc; repeat destruct Hc as [<-|Hc]; first [contradiction | split; vm_compute; discriminate] |];
      let b := fresh "b" in intros b; sintro1
  | |- wp _ (ParserProc.writeDec _ _) _ _ =>
      apply wp_writeDec; [core|]; let b := fresh "b" in let H := fresh "Hb" in let E := fresh "Eb" in intros b H E; psimp_in E
  | |- wp _ (ParserPrim.writeVtdWithLengthCheck _ _ _) _ _ =>
      apply wp_writeCheck; [assumption|core|]; let b := fresh "b" in let H := fresh "Hb" in let E := fresh "Eb" in intros b H E; psimp_in E
  | |- wp _ (appendTo _ _ _) _ _ =>
      apply wp_appendTo; [core|]; let b := fresh "b" in let H := fresh "Hb" in let E := fresh "Eb" in intros b H E; psimp_in E
  | |- wp _ (ParserPrim.getPrevOffset _) _ _ => apply wp_getPrevOffset; [core|]
  | |- _ => step1
  end; psimp; try (progress knorm; psimp).
Ltac stepsx := repeat stepx1.

(** ** Packed words *)
Lemma tag_word len last : 0 <= len < 2^31 -> 0 <= last < 2^31 ->
  wrap32 (wrap64 (shl64 len 32 + last)) = last /\ wrap32 (Z.shiftr (wrap64 (shl64 len 32 + last)) 32) = len.
Proof.
  intros Hl Ho. rewrite shl64_mul by lia. rewrite wrap64_id by lia. rewrite Z.shiftr_div_pow2 by lia.
  unfold wrap32. lia.
Qed.
Lemma shl64_32 x : exists k, shl64 x 32 = k * 2^32.
Proof.
  unfold shl64, wrap64. rewrite Z.shiftl_mul_pow2 by lia. exists ((x * 2^32 + 2^63) mod 2^64 / 2^32 - 2^31). lia.
Qed.
Lemma lor_word_low x l : 0 <= l < 2^31 -> wrap32 (Z.lor (shl64 x 32) l) = l.
Proof. intros Hl. destruct (shl64_32 x) as [k ->]. rewrite lor_disjoint by lia. unfold wrap32. lia. Qed.
Lemma lor_word_high x l : 0 <= x < 2^31 -> 0 <= l < 2^31 -> wrap32 (Z.shiftr (Z.lor (shl64 x 32) l) 32) = x.
Proof.
  intros Hx Hl. rewrite shl64_mul, lor_disjoint by lia. rewrite Z.shiftr_div_pow2 by lia. unfold wrap32. lia.
Qed.
Lemma lor_ge a b n : 0 <= n -> 0 <= a < 2^n -> 0 <= b < 2^n -> a <= Z.lor a b < 2^n.
Proof.
  intros Hn Ha Hb. split; [|apply lor_bound; assumption].
  assert (E : Z.lor a b = a + Z.ldiff b a).
  { rewrite Z.add_nocarry_lxor.
    - apply Z.bits_inj'; intros k Hk; rewrite Z.lxor_spec, Z.ldiff_spec, Z.lor_spec; destruct (Z.testbit a k), (Z.testbit b k); reflexivity.
    - apply Z.bits_inj'. intros k Hk. rewrite Z.land_spec, Z.ldiff_spec, Z.bits_0. destruct (Z.testbit a k), (Z.testbit b k); reflexivity. }
  assert (0 <= Z.ldiff b a) by (apply Z.ldiff_nonneg; lia). lia.
Qed.
Lemma pref_word last len2 len1 : 0 <= last < 2^31 -> 0 <= len2 < 2^31 -> 0 <= len1 < 2^31 ->
  last <= prefOs (Z.lor (Z.lor (shl64 last 32) (shl64 len2 16)) len1).
Proof.
  intros H1 H2 H3. unfold prefOs. rewrite !Z.shiftr_lor. rewrite !shl64_mul by lia.
  rewrite (Z.shiftr_div_pow2 (last * 2^32)), (Z.shiftr_div_pow2 (len2 * 2^16)), (Z.shiftr_div_pow2 len1) by lia.
  replace (last * 2^32 / 2^32) with last by lia. replace (len1 / 2^32) with 0 by lia. rewrite Z.lor_0_r.
  pose proof (lor_ge last (len2 * 2^16 / 2^32) 31 ltac:(lia) ltac:(lia) ltac:(lia)). rewrite wrap32_id; lia.
Qed.

Section Tag.
Variable cf : cfg.
Notation doc := (c_doc cf).
Hypothesis Hdo : 0 <= c_docOffset cf.
Hypothesis Hend : 0 <= c_end cf <= zlen doc.
Hypothesis Hend31 : c_end cf < 2^31.
Notation Core := (Core cf).
Notation wp := (wp cf).
Variable B : Z.
Notation post := (postR cf B).
Notation room := (room cf B).
Notation Inv := (Inv cf).

(** ** process_start_tag.go *)
Lemma wp_startTagNameLoop n : forall s (Q : unit -> pst -> Prop), Core s -> zlen doc - s_roff s < Z.of_nat n -> s_last s < s_roff s ->
  (forall s', Core s' -> s_depth s' = s_depth s -> s_last s' = s_last s -> s_off s' = s_roff s' -> s_roff s < s_roff s' <= c_end cf -> b_size (s_vtd s') = b_size (s_vtd s) -> Q tt s') ->
  wp (startTagNameLoop cf n) s Q.
Proof.
  induction n as [|n IH]; intros s Q H Hn Hl HQ; facts H; [lia|]. cbn [startTagNameLoop].
  assert (K : forall s1, Core s1 -> s_depth s1 = s_depth s -> s_last s1 = s_last s -> s_roff s < s_roff s1 -> b_size (s_vtd s1) = b_size (s_vtd s) -> wp (startTagNameLoop cf n) s1 Q).
  { intros s1 H1' E1 E2 E3 E4. facts H1'. apply IH; [core | lia | lia |]. intros s' H' ? ? ? ? ?. apply HQ; [exact H'|lia..]. }
  stepsx.
  1-4: try (apply (wp_checkXmlns_ns cf); [assumption|]; intros x; stepsx).
  all: first [apply K; [core | psimp; lia..] | apply HQ; [core | lia..]].
Qed.

Definition kept (s s' : pst) : Prop :=
  s_depth s' = s_depth s /\ s_last s' = s_last s /\ s_len1 s' = s_len1 s /\ s_off s' = s_off s /\ s_roff s' = s_roff s /\ s_cur s' = s_cur s /\ b_size (s_vtd s') = b_size (s_vtd s).
(** The same with one more token *)
Definition kept1 (s s' : pst) : Prop :=
  s_depth s' = s_depth s /\ s_last s' = s_last s /\ s_len1 s' = s_len1 s /\ s_off s' = s_off s /\ s_roff s' = s_roff s /\ s_cur s' = s_cur s /\ b_size (s_vtd s') = b_size (s_vtd s) + 1.
Ltac kept := unfold kept, kept1 in *; psimp; intuition congruence.
Lemma wp_setTag i v s (Q : unit -> pst -> Prop) : Core s -> tagok cf v -> (forall t, Core (set_tags t s) -> Q tt (set_tags t s)) -> wp (setTag i v) s Q.
Proof.
  intros H Hv HQ. unfold ParserWp.wp, setTag. destruct (zupd (s_tags s) i v) as [t|] eqn:E.
  - apply HQ. destruct (k_tags _ _ H) as [Z1 Z2]. apply core_set_tags; [exact H | rewrite (zupd_zlen _ _ _ _ E); exact Z1 |].
    apply (zupd_Forall _ _ _ _ _ E Z2 Hv).
  - right; right; left. reflexivity.
Qed.
Lemma wp_writeVtdL5 t o l d s (Q : unit -> pst -> Prop) : Core s -> (forall s', Core s' -> kept1 s s' -> s_len2 s' = s_len2 s -> Q tt s') -> wp (writeVtdL5 t o l d) s Q.
Proof. intros H HQ. unfold writeVtdL5. stepsx. all: apply HQ; [core | kept | reflexivity]. Qed.
Lemma wp_writeStartTag s (Q : unit -> pst -> Prop) : Core s -> (forall s', Core s' -> kept1 s s' -> s_len2 s' <= 511 -> Q tt s') -> wp (writeStartTag cf) s Q.
Proof.
  intros H HQ. unfold writeStartTag. stepsx. unfold maxPrefixLength in *. destruct (c_shallow cf).
  - stepsx. apply HQ; [core | kept | psimp; lia].
  - apply wp_writeVtdL5; [assumption|]. intros s' H' K E. apply HQ; [assumption..| lia].
Qed.
Lemma bufs_ns1 b s : bufsOk s -> bufsOk (set_ns1 b s).
Proof. apply bufs_eq; reflexivity. Qed.
Lemma bufs_ns2 b s : bufsOk s -> bufsOk (set_ns2 b s).
Proof. apply bufs_eq; reflexivity. Qed.
Lemma bufs_ns3 b s : bufsOk s -> bufsOk (set_ns3 b s).
Proof. apply bufs_eq; reflexivity. Qed.
Lemma wp_appendNs1 s (Q : unit -> pst -> Prop) : c_ns cf = true -> bufsOk s -> (forall b, Q tt (set_ns1 b s)) -> wp appendNs1 s Q.
Proof.
  intros Hns Hb HQ. unfold appendNs1. apply wp_bind, wp_get.
  apply (wp_appendNs cf Hns); [intros; apply bufs_ns1, Hb | exact HQ].
Qed.
Lemma wp_startTagNs s (Q : unit -> pst -> Prop) : Core s -> s_len2 s < 2^31 - 1 -> c_docOffset cf <= s_last s < 2^31 ->
  (forall s', Core s' -> kept s s' -> Q tt s') -> wp (startTagNs cf) s Q.
Proof.
  intros H Hl Hr HQ. facts H. unfold startTagNs. stepx1; [|stepsx; apply HQ; [core | kept]]. rename Heqb into Hns.
  assert (K : forall s1, Core s1 -> kept s s1 ->
    wp (s <- get (fun s => s) ;;
      if s_depth s <=? b_size (s_ns1 s) - 1 then
      modify (set_ns1 (setSize (s_ns1 s) (s_depth s))) ;;;
      s <- get (fun s => s) ;;
      t <- lift (intAt (s_ns1 s) (s_depth s - 1)) ;;
      modify (set_ns2 (setSize (s_ns2 s) (wrap32 (t + 1)))) ;;;
      modify (set_ns3 (setSize (s_ns3 s) (wrap32 (t + 1))))
    else ret tt) s1 Q).
  { intros s1 H1' K1. stepsx; [|apply HQ; [core | kept]].
    apply (wp_lift_ns cf Hns); [apply bufs_ns1, H1' | intros e; apply intAt_err | exact (int_panic _ _) |]. intros t _. stepsx. apply HQ; [core | kept]. }
  apply wp_bind, wp_get. apply wp_bind. psimp. stepx1.
  - apply wp_modify. apply K; [apply core_set_rec; [core | left; reflexivity] | kept].
  - apply wp_bind, wp_modify. apply wp_modify. apply K; [apply core_set_rec; [core|] | kept]. right. rewrite lor_word_low; lia.
Qed.
Lemma wp_startTagClose s0 s : Core s -> 0 <= s_depth s <= 254 -> s_off s = s_roff s -> s_roff s0 < s_roff s <= c_end cf ->
  b_size (s_vtd s) + 2 <= s_roff s - c_docOffset cf + B -> wp (startTagClose cf) s (post s0).
Proof.
  intros H Hd Ho Hr Hv. facts H. unfold startTagClose.
  assert (K : forall s1, Core s1 -> s_depth s1 <= 254 -> s_off s1 = s_roff s1 -> s_roff s0 < s_roff s1 <= c_end cf -> b_size (s_vtd s1) + 2 <= s_roff s1 - c_docOffset cf + B ->
    wp (c <- get s_cur ;;
        if c =? CH_GT then
         (if c_ns cf then appendNs1 ;;; r <- get s_rec ;; (if r =? 0 then ret tt else qualifyElement cf) else ret tt) ;;;
         processElementTail cf
        else parseErr cf "invalid char in starting tag") s1 (post s0)).
  { intros s1 H1' ? ? ? ?. stepsx; [|apply wp_elementTail; first [assumption | lia]].
    apply wp_appendNs1; [assumption | apply H1' |]. intros b. stepsx; [apply (wp_elementTail cf Hdo Hend); [core|psimp; lia..]|].
    apply (wp_qualifyElement cf Hdo); [assumption|core|psimp; lia|]. apply (wp_elementTail cf Hdo Hend); [core|psimp; lia..]. }
  apply wp_bind, wp_modify. apply wp_bind, wp_get. psimp. apply wp_bind. stepx1.
  - do 9 stepx1. apply K; [core|psimp; lia..].
  - stepx1. apply K; [core|psimp; lia..].
Qed.
Lemma wp_processStartTag s : Inv StTagStart s -> room StTagStart s -> wp (processStartTag cf) s (post s).
Proof.
  intros [H (Hd & Ho & Hl & Hr)] Hv. unfold ParserInv.room in Hv. facts H. unfold processStartTag. stepsx.
  apply wp_startTagNameLoop; [core | apply fuel_ok; core | lia |]. intros s1 H1' D1 L1 O1 R1 V1. facts H1'. stepsx. unfold maxDepth in *.
  apply wp_setTag; [core | |].
  { unfold tagok. destruct (tag_word (s_off s1 - s_last s1 - 1) (s_last s1) ltac:(lia) ltac:(lia)) as [-> ->]. lia. }
  intros t Ht. set (s2 := set_tags _ _) in *.
  assert (E2 : kept (set_len1 (s_off s1 - s_last s1 - 1) s1) s2) by (unfold kept; tauto). clearbody s2. unfold kept in E2. psimp_in E2.
  assert (T : forall s3, Core s3 -> kept s2 s3 ->
    wp (writeStartTag cf ;;; startTagNs cf ;;; modify (set_len2 0) ;;;
    c <- get s_cur ;;
    if isSpaceChar c then
      nextCharAfterWs cf ;;;
      c <- get s_cur ;;
      if isNameStartChar c then
        o <- getPrevOffset cf ;;
        modify (set_last o) ;;;
        ret StAttrName
      else startTagClose cf
    else startTagClose cf) s3 (post s)).
  { intros s3 H3' K3. unfold kept in K3. psimp_in K3. facts H3'. apply wp_bind, wp_writeStartTag; [core|]. intros s4 H4' K4 L4. unfold kept1 in K4. facts H4'.
    apply wp_bind, wp_startTagNs; [core | lia | lia |].
    intros s5 H5' K5. unfold kept in K5. facts H5'. stepsx.
    - fin.
    - apply wp_startTagClose; [core | lia..].
    - apply wp_startTagClose; [core | psimp; lia..]. }
  apply wp_bind. stepx1; [apply wp_modify | apply wp_ret]; apply T; try core; unfold kept; psimp; tauto.
Qed.

(** ** process_attr_name.go *)
Lemma wp_attrNameLoop n : forall s (Q : unit -> pst -> Prop), Core s -> s_off s = s_roff s -> s_last s < s_off s ->
  (isNameChar (s_cur s) = true \/ s_roff s <= c_end cf) -> (s_cur s = 58 -> s_roff s <= c_end cf) ->
  zlen doc - s_roff s < Z.of_nat n ->
  (forall s', Core s' -> s_depth s' = s_depth s -> s_last s' = s_last s -> s_off s' = s_roff s' -> s_roff s <= s_roff s' <= c_end cf -> b_size (s_vtd s') = b_size (s_vtd s) -> Q tt s') ->
  wp (attrNameLoop cf n) s Q.
Proof.
  induction n as [|n IH]; intros s Q H Ho Hl Hc1 Hc2 Hn HQ; facts H; [lia|]. cbn [attrNameLoop]. stepsx.
  - assert (s_roff s <= c_end cf) by (apply Hc2; lia).
    apply IH; [core | tauto | lia | right; lia | intros; lia | lia |]. intros s' H' ? ? ? ? ?. apply HQ; [exact H'|lia..].
  - apply IH; [core | tauto | lia | right; lia | intros; lia | lia |]. intros s' H' ? ? ? ? ?. apply HQ; [exact H'|lia..].
  - destruct Hc1 as [Hc1|Hc1]; [congruence|]. apply HQ; [exact H | lia..].
Qed.
Lemma wp_attrNameXmlns s (Q : unit -> pst -> Prop) : Core s -> s_off s = s_roff s -> s_roff s <= c_end cf ->
  (forall s', Core s' -> s_depth s' = s_depth s -> s_last s' = s_last s -> s_off s' = s_roff s' -> s_roff s <= s_roff s' ->
    (isNameChar (s_cur s') = true \/ s_roff s' <= c_end cf) -> (s_cur s' = 58 -> s_roff s' <= c_end cf) -> b_size (s_vtd s') = b_size (s_vtd s) -> Q tt s') ->
  wp (attrNameXmlns cf) s Q.
Proof.
  intros H Ho Hr HQ. facts H. unfold attrNameXmlns. stepsx.
  all: apply HQ; [core | psimp; try lia..].
  left. match goal with |- isNameChar ?c = true => assert (E : c = 120) by lia; rewrite E end. reflexivity.
Qed.
Lemma wp_matchBytes n : forall a b j s (Q : Z -> pst -> Prop), 0 <= a + j -> a + j + Z.of_nat n <= zlen doc -> 0 <= b + j -> b + j + Z.of_nat n <= zlen doc ->
  (forall x, Q x s) -> wp (matchBytes cf n a b j) s Q.
Proof.
  induction n as [|n IH]; intros a b j s Q H1 H2 H3 H4 HQ; cbn [matchBytes]; [apply wp_ret, HQ|].
  assert (exists x, znth doc (a + j) = Some x) as [x Hx] by (apply znth_some_iff; lia).
  assert (exists y, znth doc (b + j) = Some y) as [y Hy] by (apply znth_some_iff; lia).
  apply wp_bind. unfold ParserWp.wp at 1, idx. rewrite Hx. apply wp_bind. unfold ParserWp.wp at 1, idx. rewrite Hy.
  step1; [|apply wp_ret, HQ]. apply IH; [lia..|exact HQ].
Qed.
Lemma wp_attrUniqueLoop n : forall i s (Q : bool -> pst -> Prop), Core s -> 0 <= i -> i + Z.of_nat n <= 256 ->
  s_last s + s_len1 s <= zlen doc -> (forall x, Q x s) -> wp (attrUniqueLoop cf n i) s Q.
Proof.
  induction n as [|n IH]; intros i s Q H Hi Hn Hl HQ; cbn [attrUniqueLoop]; [apply wp_ret, HQ|]. facts H.
  apply wp_bind, wp_get. destruct (k_attrs _ _ H) as (L & F & _).
  destruct (znth (s_attrNames s) i) as [e|] eqn:Ee; [|apply znth_none_iff in Ee; lia].
  rewrite Forall_forall in F. destruct (F e (znth_in _ _ _ Ee)) as [A1 A2].
  assert (K : forall u : bool, wp (rest <- attrUniqueLoop cf n (i + 1) ;; ret (u && rest)) s Q).
  { intros u. apply wp_bind. apply IH; [exact H | lia | lia | exact Hl|]. intros x. apply wp_ret, HQ. }
  cbv zeta. apply wp_bind. match goal with |- ParserWp.wp _ (if ?b then _ else _) _ _ => destruct b eqn:E end.
  - apply wp_bind. destruct (Z_le_gt_dec (wrap32 e) 0) as [L0|L0].
    + replace (Z.to_nat (wrap32 e)) with O by lia. apply wp_ret, wp_ret, K.
    + apply wp_matchBytes; [lia..|]. intros x. apply wp_ret, K.
  - apply wp_ret, K.
Qed.
Lemma wp_storeAttrName s (Q : unit -> pst -> Prop) : Core s -> 0 <= s_last s < 2^31 -> 0 <= s_len1 s -> s_last s + s_len1 s <= zlen doc -> s_last s + s_len1 s < 2^31 ->
  (forall l, Core (set_attrCount (s_attrCount s + 1) (set_attrNames l s)) -> Q tt (set_attrCount (s_attrCount s + 1) (set_attrNames l s))) ->
  wp storeAttrName s Q.
Proof.
  intros H Hl Hn Hz H31 HQ. unfold ParserWp.wp, storeAttrName. destruct (zupd _ _ _) as [l|] eqn:E; [|right; right; right; reflexivity].
  apply HQ. destruct (k_attrs _ _ H) as (L & F & C).
  assert (A : 0 <= s_attrCount s < 256).
  { destruct (Z_lt_ge_dec (s_attrCount s) 256); [lia|]. unfold zupd in E. destruct ((s_attrCount s <? 0) || _) eqn:E2; [discriminate|]. lia. }
  destruct H. constructor; psimp; try assumption; [|destruct k_fit as (? & ? & ?); repeat split; [assumption | lia | assumption]].
  split; [rewrite (zupd_zlen _ _ _ _ E); exact L|]. split; [|lia].
  apply (zupd_Forall _ _ _ _ _ E F). unfold attrok. rewrite lor_word_high, lor_word_low by lia. lia.
Qed.
Lemma wp_storePrefName s (Q : unit -> pst -> Prop) : c_ns cf = true -> Core s -> c_docOffset cf <= s_last s < 2^31 -> 0 <= s_len1 s < 2^31 -> s_prefCount s < s_attrCount s ->
  (forall l, Core (set_prefCount (s_prefCount s + 1) (set_prefNames l s)) -> Q tt (set_prefCount (s_prefCount s + 1) (set_prefNames l s))) ->
  wp storePrefName s Q.
Proof.
  intros Hns H Hl Hn Hlt HQ. facts H. destruct (k_prefs _ _ H) as (C & F). destruct (k_fit _ _ H) as (L & _ & _).
  unfold ParserWp.wp, storePrefName. destruct (zupd _ _ _) as [l|] eqn:E.
  2:{ exfalso. unfold zupd in E. destruct (_ || _) eqn:E2 in E; [lia | discriminate]. }
  apply HQ. destruct H. constructor; psimp; try assumption.
  2:{ split; [rewrite (zupd_zlen _ _ _ _ E); exact L|]. split; [lia | intros N; rewrite N in Hns; discriminate]. }
  split; [lia|].
  intros j e Hj He. destruct (Z.eq_dec j (s_prefCount s)) as [->|N].
  - rewrite (zupd_same _ _ _ _ E) in He. injection He as <-.
    pose proof (pref_word (s_last s) (s_len2 s) (s_len1 s) ltac:(lia) ltac:(lia) ltac:(lia)). lia.
  - rewrite (zupd_other _ _ _ _ _ E) in He by lia. apply (F j); [lia | exact He].
Qed.
Lemma wp_checkAttrUniqueness s (Q : unit -> pst -> Prop) : Core s -> c_docOffset cf <= s_last s < 2^31 -> 0 <= s_len1 s -> s_last s + s_len1 s <= zlen doc -> s_last s + s_len1 s < 2^31 ->
  (forall s', Core s' -> kept s s' -> Q tt s') -> wp (checkAttrUniqueness cf) s Q.
Proof.
  intros H Hl Hn Hz H31 HQ. facts H. unfold checkAttrUniqueness. stepsx.
  apply wp_attrUniqueLoop; [exact H | lia..|]. intros u. stepsx.
  apply wp_storeAttrName; [exact H | lia..|]. intros l HCl. stepx1. stepx1.
  assert (K0 : forall s1, Core s1 -> s1 = set_attrCount (s_attrCount s + 1) (set_attrNames l s) -> kept s s1) by (intros s1 _ ->; kept).
  stepx1; [|apply wp_ret, HQ; [exact HCl | kept]].
  assert (Hns : c_ns cf = true) by (destruct (c_ns cf); [reflexivity | discriminate]).
  apply wp_bind, (wp_checkXml_ns cf Hns). intros x.
  match goal with |- ParserWp.wp _ (if ?b then _ else _) _ _ => destruct b end; [apply wp_ret, HQ; [exact HCl | kept]|].
  destruct (k_fit _ _ H) as (_ & Fit & _).
  apply wp_storePrefName; [exact Hns | exact HCl | psimp; lia | psimp; lia | psimp; lia|]. intros l2 H2'. apply HQ; [exact H2' | kept].
Qed.
Lemma wp_attrNameNsChecks s (Q : unit -> pst -> Prop) : Core s -> c_docOffset cf <= s_last s ->
  (forall s', Core s' -> kept s s' -> s_len2 s' = s_len2 s -> Q tt s') -> wp (attrNameNsChecks cf) s Q.
Proof.
  intros H Hl HQ. facts H. unfold attrNameNsChecks. stepx1. stepx1. stepx1; [|stepsx; apply HQ; [exact H | kept | reflexivity]].
  assert (Hns : c_ns cf = true) by (destruct (c_ns cf); [reflexivity | rewrite andb_false_r in Heqb; discriminate]).
  assert (K : wp (when ((1 =? 1) && (s_len1 s - s_len2 s =? 4) || (1 =? 2) && (s_len1 s - s_len2 s =? 8))
     do (x <- checkXmlPrefix cf (s_last s + s_len2 s + 1) (-1) false;; modify (set_isXml x))) s Q).
  { step1; [|apply wp_ret, HQ; [exact H | kept | reflexivity]].
    apply wp_bind, (wp_checkXml_ns cf Hns). intros x. apply wp_modify, HQ; [core | kept | reflexivity]. }
  cbv zeta. apply wp_bind. step1; [|apply wp_ret, K].
  apply wp_bind, (wp_checkXmlns_ns cf Hns). intros x. destruct x; [|apply wp_ret, K].
  apply wp_parseErrAt_ns; [assumption..|lia].
Qed.
Lemma wp_writeAttrName s (Q : unit -> pst -> Prop) : Core s ->
  (forall s', Core s' -> kept1 s s' -> Q tt s') -> wp (writeAttrName cf) s Q.
Proof.
  intros H HQ. facts H. unfold writeAttrName. stepx1. stepx1. stepx1.
  assert (K : forall s1, Core s1 -> kept s s1 -> forall (b : bool) t o l d m, wp (if b then parseErr cf m else writeVtd t o l d) s1 Q).
  { intros s1 H1' K1 b t o l d m. stepsx. apply HQ; [core | kept]. }
  stepx1; [|apply wp_ret, K; [exact H | kept]].
  assert (Hns : c_ns cf = true) by (destruct (c_ns cf); [reflexivity | rewrite andb_false_r in Heqb; discriminate]).
  apply (wp_appendNs cf Hns); [intros; apply bufs_ns3, H|]. intros b. apply K; [core | kept].
Qed.
Lemma wp_processAttrName s : Inv StAttrName s -> room StAttrName s -> wp (processAttrName cf) s (post s).
Proof.
  intros [H (Hd & Ho & Hl & Hl2 & Hr & Hc)] Hv. unfold ParserInv.room in Hv. facts H. unfold processAttrName.
  apply wp_bind, wp_attrNameXmlns; [assumption..|]. intros s1 H1' D1 L1 O1 R1 C1 C2 V1. facts H1'.
  apply wp_bind, wp_attrNameLoop; [assumption..|lia|assumption|assumption|apply fuel_ok; assumption|]. intros s2 H2' D2 L2 O2 R2 V2. facts H2'.
  do 6 stepx1. psimp. 
  apply wp_bind, wp_attrNameNsChecks; [core | psimp; lia|]. intros s3 H3' K3 _. unfold kept in K3. psimp_in K3. facts H3'.
  apply wp_bind, wp_checkAttrUniqueness; [core | lia..|]. intros s4 H4' K4. unfold kept in K4. facts H4'.
  apply wp_bind, wp_writeAttrName; [core|]. intros s5 H5' K5. unfold kept1 in K5. facts H5'.
  stepsx; fin.
Qed.

(** ** process_attr_val.go *)
Lemma wp_attrValLoop n : forall q s (Q : unit -> pst -> Prop), Core s -> zlen doc - s_roff s < Z.of_nat n ->
  (forall s', Core s' -> scan s s' -> s_roff s < s_roff s' -> Q tt s') -> wp (attrValLoop cf n q) s Q.
Proof.
  induction n as [|n IH]; intros q s Q H Hn HQ; facts H; [lia|]. cbn [attrValLoop]. stepsx.
  - apply HQ; [core | scantac | lia].
  - apply (wp_entityIdentifier cf Hend); [core|]. intros v s' H' Hs' Hr'. facts H'. stepsx.
    apply IH; [core | lia |]. intros s2 H2' Hs2 Hr2. apply HQ; [core | scantac | lia].
  - apply IH; [core | lia |]. intros s2 H2' Hs2 Hr2. apply HQ; [core | scantac | lia].
Qed.
Lemma wp_attrValNs s (Q : unit -> pst -> Prop) : Core s -> s_off s = s_roff s ->
  (forall s', Core s' -> scan s s' -> s_roff s <= s_roff s' -> Q tt s') -> wp (attrValNs cf) s Q.
Proof.
  intros H Ho HQ. facts H. unfold attrValNs. stepx1. stepx1. stepx1; [|apply wp_ret, HQ; [exact H | scantac | lia]].
  assert (Hns : c_ns cf = true) by (destruct (c_ns cf); [reflexivity | discriminate]).
  stepx1; [stepsx|]. apply wp_bind, (wp_identifyNsUrl cf Hend Hns); [assumption..|]. intros u s1 L1.
  assert (H1' : Core s1) by apply L1. facts H1'. destruct L1 as (_ & Sc & Rr & _).
  stepx1. stepx1. stepx1; [stepsx|]. apply wp_bind.
  assert (K : forall s2, Core s2 -> scan s s2 -> s_roff s <= s_roff s2 -> wp (match u with
        | NsDefault => ret tt
        | Ns1998 => parseErr cf "namespace declation cannot point to http://www.w3.org/XML/1998/namespace"
        | Ns2000 => parseErr cf "namespace declation cannot point to http://www.w3.org/2000/xmlns"
        end) s2 Q).
  { intros s2 H2' Sc2 R2. destruct u; stepsx. apply HQ; assumption. }
  stepx1; [apply wp_ret, K; [exact H1' | apply Sc | exact Rr]|].
  apply (wp_appendNs cf Hns); [intros; apply bufs_ns2, H1'|]. intros b. apply K; [core | destruct Sc as [Sc _]; exact Sc | exact Rr].
Qed.
Lemma wp_attrValClose s0 s : Core s -> 0 <= s_depth s <= 254 -> s_off s = s_roff s -> s_roff s0 < s_roff s <= c_end cf ->
  b_size (s_vtd s) + 2 <= s_roff s - c_docOffset cf + B -> wp (attrValClose cf) s (post s0).
Proof.
  intros H Hd Ho Hr Hv. facts H. unfold attrValClose.
  assert (T : forall s1, Core s1 -> s_prefCount s1 = 0 -> s_depth s1 <= 254 -> s_off s1 = s_roff s1 -> s_roff s0 < s_roff s1 <= c_end cf -> b_size (s_vtd s1) + 2 <= s_roff s1 - c_docOffset cf + B ->
    wp (modify (set_attrCount 0) ;;; processElementTail cf) s1 (post s0)).
  { intros s1 H1' ? ? ? ? ?. stepsx. apply (wp_elementTail cf Hdo Hend); [core|psimp; lia..]. }
  assert (K : forall s1, Core s1 -> s_depth s1 <= 254 -> s_off s1 = s_roff s1 -> s_roff s0 < s_roff s1 <= c_end cf -> b_size (s_vtd s1) + 2 <= s_roff s1 - c_docOffset cf + B ->
    wp (c <- get s_cur ;;
  if c =? CH_GT then
    (if c_ns cf then
       appendNs1 ;;;
       n <- get s_prefCount ;;
       (if 0 <? n then qualifyAttributes cf else ret tt) ;;;
       (if 0 <? n then checkQualifiedAttributeUniqueness cf else ret tt) ;;;
       r <- get s_rec ;;
       (if r =? 0 then ret tt else qualifyElement cf) ;;;
       modify (set_prefCount 0)
     else ret tt) ;;;
    modify (set_attrCount 0) ;;;
    processElementTail cf
  else parseErr cf InvalidChar) s1 (post s0)).
  { intros s1 H1' ? ? ? ?. stepx1. stepx1. stepx1; [|stepsx]. apply wp_bind. destruct (c_ns cf) eqn:Hns; [|apply wp_ret, T; try assumption; apply (k_fit _ _ H1'), Hns].
    apply wp_bind, wp_appendNs1; [exact Hns | apply H1' |]. intros b. apply wp_bind, wp_get. psimp. apply wp_bind.
    assert (Z1 : forall s2, Core s2 -> s_depth s2 <= 254 -> s_off s2 = s_roff s2 -> s_roff s0 < s_roff s2 <= c_end cf -> b_size (s_vtd s2) + 2 <= s_roff s2 - c_docOffset cf + B ->
      wp (r <- get s_rec ;; (if r =? 0 then ret tt else qualifyElement cf) ;;; modify (set_prefCount 0)) s2
       (fun _ s' => wp (modify (set_attrCount 0) ;;; processElementTail cf) s' (post s0))).
    { intros s2 H2' ? ? ? ?. facts H2'. stepx1. stepx1. stepx1. stepx1.
      - stepx1. apply wp_modify, T; [core | reflexivity | psimp; lia..].
      - apply (wp_qualifyElement cf Hdo); [assumption|core|psimp; lia|]. apply wp_modify, T; [core | reflexivity | psimp; lia..]. }
    destruct (0 <? s_prefCount s1) eqn:E.
    - unfold qualifyAttributes. apply wp_bind, wp_get. psimp. pose proof (pref_bound cf s1 H1'). apply (wp_qualifyAttrsLoop cf Hdo Hns); [core | lia | lia |]. intros u Hu. psimp_in Hu. pose proof (zlen_nonneg (s_prefUrls s1)). apply wp_bind.
      unfold checkQualifiedAttributeUniqueness. apply wp_bind, wp_get. psimp.
      apply (wp_qualUniqueOuter cf Hdo Hend Hns); [core | psimp; assumption | lia | psimp; lia | reflexivity | psimp; lia |].
      intros s2 (H2' & Sc & Rr & Rb & _). unfold scanc, scan in Sc. psimp_in Sc. psimp_in Rr. psimp_in Rb. apply Z1; [exact H2' | lia..].
    - apply wp_ret, wp_bind, wp_ret. apply Z1; [core | psimp; lia..]. }
  apply wp_bind, wp_modify. apply wp_bind, wp_get. psimp. apply wp_bind. stepx1.
  - do 7 stepx1. apply K; [core|psimp; lia..].
  - stepx1. apply K; [core|psimp; lia..].
Qed.
Lemma wp_processAttrVal s : Inv StAttrVal s -> room StAttrVal s -> wp (processAttrVal cf) s (post s).
Proof.
  intros [H (Hd & Ho & Hl)] Hv. unfold ParserInv.room in Hv. facts H. unfold processAttrVal. stepsx.
  apply wp_attrValLoop; [core | apply fuel_ok; core|]. intros s1 H1' Sc R1. unfold scan in Sc. facts H1'. stepsx.
  apply wp_attrValNs; [core | tauto |]. intros s2 H2' Sc2 R2. unfold scan in Sc2. psimp_in Sc2. psimp_in R2. facts H2'. stepsx.
  - fin.
  - apply wp_attrValClose; [core | lia..].
  - apply wp_attrValClose; [core | lia..].
Qed.
End Tag.
