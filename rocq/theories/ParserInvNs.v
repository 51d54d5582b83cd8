(** The invariant and the namespace functions: what is shown is that the panics
    are those of [nsPanic], that the errors carry right positions, that the invariant is kept, and that the only loop that can run
    forever is the URL comparison of a document with a [long_reference]. *)
From Verif Require Import Lib XmlChar XmlCharProofs Buffer BufferProofs Reader TokenProofs ParserState ParserPrim ParserProc ParserMain SpecParse ParserWp ParserInv.

Ltac sintro1 :=
  let s' := fresh "s" in let HC := fresh "HC" in let Hs := fresh "Hs" in let Hr := fresh "Hr" in
  intros s' HC Hs Hr; unfold scanc, scan in Hs; psimp_in Hs; psimp_in Hr; facts HC.
Ltac knorm :=
  repeat match goal with
  | H : Core _ ?s |- context [s_single ?s] => change (s_single s) with (s_single s); rewrite (k_single _ _ H)
  | H : Core _ ?s |- context [s_ws ?s] => change (s_ws s) with (s_ws s); rewrite (k_ws _ _ H)
  | H : Core _ ?s |- context [s_enc ?s] => change (s_enc s) with (s_enc s); rewrite (k_enc _ _ H)
  | H : Core _ ?s |- context [s_inc ?s] => change (s_inc s) with (s_inc s); rewrite (k_inc _ _ H)
  end.
Ltac step1 :=
  lazymatch goal with
  | |- wp _ (bind _ _) _ _ => apply wp_bind
  | |- wp _ (ret _) _ _ => apply wp_ret
  | |- wp _ (get _) _ _ => apply wp_get
  | |- wp _ (modify _) _ _ => apply wp_modify
  | |- wp _ markLast _ _ => unfold markLast
  | |- wp _ (andM _ _) _ _ => apply wp_andM
  | |- wp _ (orM _ _) _ _ => apply wp_orM
  | |- wp _ (parseErr _ _) _ _ => apply wp_parseErr; [assumption | core]
  | |- wp _ (ParserPrim.getChar _) _ _ =>
      apply wp_getChar'; [assumption|core|]; let b := fresh "b" in intros b; sintro1
  | |- wp _ (ParserPrim.skipChar _ _) _ _ =>
      apply wp_skipChar'; [core| first [discriminate | lia] |]; let b := fresh "b" in intros b; sintro1
  | |- wp _ (ParserPrim.nextChar _) _ _ => apply wp_nextChar'; [assumption|core|]; sintro1
  | |- wp _ (ParserPrim.nextCharAfterWs _) _ _ => apply wp_nextCharAfterWs'; [assumption|core|]; sintro1
  | |- wp _ (writeVtd _ _ _ _) _ _ =>
      apply wp_writeVtd; [core|]; let b := fresh "b" in let H := fresh "Hb" in let E := fresh "Eb" in intros b H E; psimp_in E
  | |- wp _ (catch _ (fun e => fail (EInternal _ (Some e))) _) _ _ => apply wp_catch_wrap
  | |- wp _ (if ?b then _ else _) _ _ => destruct b eqn:?
  | |- if ?b then _ else _ => destruct b eqn:?
  end; psimp; try (progress knorm; psimp).
Ltac steps := repeat step1.
Ltac scantac := unfold scanc, scan in *; intuition congruence.
Ltac fin0 :=
  split; [split; [core | psimp; repeat match goal with |- _ /\ _ => split end; first [lia | assumption | idtac]] | psimp; first [lia | idtac]].
Ltac froom := unfold room; ifs; change (Z.shiftl 1 1) with 2 in *; psimp; first [lia | split; lia | idtac].
Ltac fin := lazymatch goal with |- postR _ _ _ _ _ => split; [fin0 | froom] | |- _ => fin0 end.

Lemma lineScan_none doc n : forall so line lo, 0 <= so -> zlen doc < so + Z.of_nat n -> so <= zlen doc \/ n <> O -> lineScan doc n so line lo = None.
Proof.
  induction n as [|n IH]; intros so line lo Hso Hn Hd; [lia|]. cbn [lineScan].
  destruct (znth doc so) as [b|] eqn:E; [|reflexivity]. apply znth_range in E.
  destruct (b2z b =? 10); apply IH; lia.
Qed.

(** ** Panics of the buffers and of the reader *)
Lemma bget_panic {V} (b : pbuf V) i w : bget b i = Panic w -> w = PnPage.
Proof. unfold bget. destruct (_ || _); [discriminate|]. destruct (znth (b_pages b) i); congruence. Qed.
Lemma land_le a b : 0 <= a -> 0 <= Z.land a b <= a.
Proof.
  intros H. split; [apply Z.land_nonneg; left; exact H|].
  assert (E : a = Z.land a b + Z.ldiff a b).
  { rewrite Z.add_nocarry_lxor; apply Z.bits_inj'; intros k Hk; rewrite ?Z.lxor_spec, ?Z.land_spec, ?Z.ldiff_spec, ?Z.bits_0; destruct (Z.testbit a k), (Z.testbit b k); reflexivity. }
  assert (0 <= Z.ldiff a b) by (apply Z.ldiff_nonneg; lia). lia.
Qed.
Lemma bat_panic {V} werr (b : pbuf V) i w : bat werr b i = Panic w -> w = PnPage.
Proof.
  unfold bat. destruct (bget b _) as [p|e|w'] eqn:E; [|discriminate | intros [= <-]; exact (bget_panic _ _ _ E)].
  destruct ((i <? 0) || _) eqn:L; [discriminate|]. pose proof (land_le i (b_r b) ltac:(lia)).
  destruct (proj2 (znth_some_iff p (Z.land i (b_r b))) ltac:(lia)) as [v ->]. discriminate.
Qed.
Lemma lower_panic b i w : lower32At b i = Panic w -> nsPanic w.
Proof. unfold lower32At. destruct (longAt b i) eqn:E; intros [= <-]. right. exact (bat_panic _ _ _ _ E). Qed.
Lemma upper_panic b i w : upper32At b i = Panic w -> nsPanic w.
Proof. unfold upper32At. destruct (longAt b i) eqn:E; intros [= <-]. right. exact (bat_panic _ _ _ _ E). Qed.
Lemma int_panic b i w : intAt b i = Panic w -> nsPanic w.
Proof. intros E. right. exact (bat_panic _ _ _ _ E). Qed.
Lemma bappend_panic {V} (b : pbuf V) v b' w : bappend b v = (b', Panic w) -> nsPanic w.
Proof.
  unfold bappend. destruct (b_size b <? b_cap b); [|discriminate]. destruct (bget b _) eqn:E; [|discriminate|].
  - unfold bset. destruct (_ || _); [discriminate|]. destruct (zupd _ _ _); [discriminate|]. intros [= <- <-]. right. reflexivity.
  - intros [= <- <-]. right. exact (bget_panic _ _ _ E).
Qed.
Lemma rdLong_panic r o w : rdGetLongCharAt r o = Panic w -> nsPanic w.
Proof. unfold rdGetLongCharAt. repeat destruct (znth _ _); try destruct (_ =? _); try destruct (_ =? _); try discriminate; intros [= <-]; left; reflexivity. Qed.

Section Ns.
Variable cf : cfg.
Notation doc := (c_doc cf).
Hypothesis Hdo : 0 <= c_docOffset cf.
Hypothesis Hend : 0 <= c_end cf <= zlen doc.
Hypothesis Hend31 : c_end cf < 2^31.
Hypothesis Hns : c_ns cf = true.
Notation Core := (Core cf).
Notation wp := (wp cf).

Lemma ns_panic w : nsPanic w -> panicOk cf w.
Proof. intros H. left. split; [exact Hns | exact H]. Qed.
Ltac nsp := apply ns_panic; left; reflexivity.
Lemma wp_idx_ns i s (Q : Z -> pst -> Prop) : (forall b, znth doc i = Some b -> Q (b2z b) s) -> wp (idx cf i) s Q.
Proof. intros HQ. unfold ParserWp.wp, idx. destruct (znth doc i) eqn:E; [apply HQ; reflexivity | nsp]. Qed.
Lemma wp_lift_ns {A} (o : out A) s (Q : A -> pst -> Prop) : bufsOk s -> (forall e, o = Err e -> errOk cf e) -> (forall w, o = Panic w -> nsPanic w) ->
  (forall a, o = Ok a -> Q a s) -> wp (lift o) s Q.
Proof.
  intros Hb He Hw HQ. unfold ParserWp.wp, lift. destruct o as [a|e|w]; [apply HQ; reflexivity | split; [apply He; reflexivity | exact Hb] | apply ns_panic, Hw; reflexivity].
Qed.
Lemma errOk_idx e : e = idxErr None -> errOk cf e.
Proof. intros ->. exact I. Qed.
Lemma bget_err {V} (b : pbuf V) i e : bget b i = Err e -> e = idxErr None.
Proof. unfold bget. destruct ((i <? 0) || _); [congruence|]. destruct (znth (b_pages b) i); discriminate. Qed.
Lemma intAt_err b i e : intAt b i = Err e -> errOk cf e.
Proof.
  unfold intAt, bat. destruct (bget b _) eqn:E; [|intros [= <-]; apply errOk_idx, (bget_err _ _ _ E)|discriminate].
  destruct (_ || _); [intros [= <-]; exact I | destruct (znth _ _); discriminate].
Qed.
Lemma longAt_err b i e : longAt b i = Err e -> e = idxErr None.
Proof.
  unfold longAt, bat. destruct (bget b _) eqn:E; [|congruence|discriminate].
  destruct (_ || _); [congruence | destruct (znth _ _); discriminate].
Qed.
Lemma lower_err b i e : lower32At b i = Err e -> errOk cf e.
Proof. unfold lower32At. destruct (longAt b i) eqn:E; intros [= <-]. rewrite (longAt_err _ _ _ E). exact I. Qed.
Lemma upper_err b i e : upper32At b i = Err e -> errOk cf e.
Proof. unfold upper32At. destruct (longAt b i) eqn:E; intros [= <-]. rewrite (longAt_err _ _ _ E). exact I. Qed.
Lemma upper_range b i v : upper32At b i = Ok v -> -2^31 <= v < 2^31.
Proof. unfold upper32At. destruct (longAt b i); intros [= <-]. apply wrap32_range. Qed.
Lemma bappend_err {V} (b : pbuf V) v b' e : bappend b v = (b', Err e) -> errOk cf e.
Proof.
  unfold bappend. destruct (b_size b <? b_cap b); [|discriminate].
  destruct (bget b _) eqn:E; [|intros [= <- <-]; apply errOk_idx, (bget_err _ _ _ E)|discriminate].
  unfold bset. destruct (_ || _); [intros [= <- <-]; exact I|]. destruct (zupd _ _ _); discriminate.
Qed.
Lemma wp_appendNs getb setb v s (Q : unit -> pst -> Prop) : (forall b, bufsOk (setb b s)) ->
  (forall b, Q tt (setb b s)) -> wp (appendTo getb setb v) s Q.
Proof.
  intros Hb HQ. unfold ParserWp.wp, appendTo. destruct (bappend (getb s) v) as [b' o] eqn:E.
  destruct o as [[]|e|w]; [apply HQ | split; [apply (bappend_err _ _ _ _ E) | apply Hb] | apply ns_panic, (bappend_panic _ _ _ _ E)].
Qed.
Lemma wp_parseErrAt_ns {A} msg o s (Q : A -> pst -> Prop) : Core s -> c_docOffset cf <= o -> wp (parseErrAt cf msg o) s Q.
Proof.
  intros H Ho. destruct (Z_le_gt_dec o (zlen doc)) as [L|L]; [apply wp_parseErrAt; [assumption | exact H | lia]|].
  apply wp_bind. unfold ParserWp.wp at 1, fmtCustomLine. rewrite (k_enc _ s H). change (0 <? FormatUtf16BE) with true. cbv iota.
  facts H. rewrite lineScan_none by lia. nsp.
Qed.

Lemma wp_matchAt_ns pat : forall o s (Q : bool -> pst -> Prop), (forall b, Q b s) -> wp (matchAt cf o pat) s Q.
Proof.
  induction pat as [|c t IH]; intros o s Q HQ; cbn [matchAt]; [apply wp_ret, HQ|].
  apply wp_bind, wp_idx_ns. intros b Hb. destruct (b2z b =? c); [apply IH; exact HQ | apply wp_ret, HQ].
Qed.
Lemma wp_matchBytes_ns n : forall a b j s (Q : Z -> pst -> Prop), (forall x, Q x s) -> wp (matchBytes cf n a b j) s Q.
Proof.
  induction n as [|n IH]; intros a b j s Q HQ; cbn [matchBytes]; [apply wp_ret, HQ|].
  apply wp_bind, wp_idx_ns. intros x Hx. apply wp_bind, wp_idx_ns. intros y Hy.
  destruct (b2z x =? b2z y); [apply IH; exact HQ | apply wp_ret, HQ].
Qed.
Lemma wp_checkXml_ns o l c s (Q : bool -> pst -> Prop) : (forall b, Q b s) -> wp (checkXmlPrefix cf o l c) s Q.
Proof.
  intros HQ. unfold checkXmlPrefix. apply wp_bind, wp_get. apply wp_bind.
  assert (T : forall p x, wp (matchAt cf o p) s (fun a s' => wp (if a && c then ret x else ret a) s' Q)).
  { intros p x. apply wp_matchAt_ns. intros b. destruct (b && c); apply wp_ret, HQ. }
  match goal with |- ParserWp.wp _ (if ?b then _ else _) _ _ => destruct b end; [apply T|].
  match goal with |- ParserWp.wp _ (if ?b then _ else _) _ _ => destruct b end; apply T.
Qed.
Lemma wp_checkXmlns_ns o l c s (Q : bool -> pst -> Prop) : (forall b, Q b s) -> wp (checkXmlnsPrefix cf o l c) s Q.
Proof.
  intros HQ. unfold checkXmlnsPrefix. apply wp_bind, wp_get. apply wp_bind.
  assert (T : forall p x, wp (matchAt cf o p) s (fun a s' => wp (if a && c then ret x else ret a) s' Q)).
  { intros p x. apply wp_matchAt_ns. intros b. destruct (b && c); apply wp_ret, HQ. }
  match goal with |- ParserWp.wp _ (if ?b then _ else _) _ _ => destruct b end; [apply T|].
  match goal with |- ParserWp.wp _ (if ?b then _ else _) _ _ => destruct b end; apply T.
Qed.

Lemma wp_qualifyElementLoop n : forall i pl po s (Q : bool -> pst -> Prop), bufsOk s -> (forall b, Q b s) ->
  wp (qualifyElementLoop cf n i pl po) s Q.
Proof.
  induction n as [|n IH]; intros i pl po s Q Hb HQ; cbn [qualifyElementLoop]; [apply wp_ret, HQ|].
  apply wp_bind, wp_get. apply wp_bind, wp_lift_ns; [exact Hb | apply upper_err | apply upper_panic |]. intros u _. cbv zeta.
  destruct (_ =? pl); [|apply IH; assumption].
  destruct (lower32At (s_ns3 s) i) eqn:El; [|apply wp_ret, HQ | apply wp_panics, ns_panic, (lower_panic _ _ _ El)].
  apply wp_bind, wp_matchBytes_ns. intros j. destruct (_ =? _); [apply wp_ret, HQ | apply IH; assumption].
Qed.
Lemma wp_qualifyElement s (Q : unit -> pst -> Prop) : Core s -> s_rec s <> 0 -> Q tt s -> wp (qualifyElement cf) s Q.
Proof.
  intros H Hr HQ. unfold qualifyElement. apply wp_bind, wp_get. apply wp_bind.
  apply wp_qualifyElementLoop; [apply H|]. intros [|]; [apply wp_ret, HQ|].
  apply wp_bind, wp_checkXml_ns. intros [|]; [apply wp_ret, HQ|].
  apply wp_parseErrAt_ns; [exact H|]. destruct (k_rec _ _ H); [contradiction | assumption].
Qed.

(** ** getCharResolved *)
Lemma wp_getCharUnit o s (Q : Z -> pst -> Prop) : Core s -> (forall b, znth doc o = Some b -> Q (b2z b) s) -> wp (getCharUnit cf o) s Q.
Proof.
  intros H HQ. unfold getCharUnit. apply wp_bind, wp_get. knorm. change (0 <=? 2) with true. cbv iota. apply wp_idx_ns, HQ.
Qed.
Lemma wp_resolvedSeq seq : forall o i s (Q : unit -> pst -> Prop), Core s -> Q tt s -> wp (resolvedSeq cf seq o i) s Q.
Proof.
  induction seq as [|c t IH]; intros o i s Q H HQ; cbn [resolvedSeq]; [apply wp_ret, HQ|].
  apply wp_bind, wp_getCharUnit; [exact H|]. intros b Hb. destruct (_ =? _); [apply IH; assumption|].
  apply wp_fail; [exact I | apply H].
Qed.
Lemma wp_resolvedHex n : forall o i v s (Q : Z * Z -> pst -> Prop), Core s -> 0 <= o < zlen doc -> zlen doc - o < Z.of_nat n -> (forall x, Q x s) ->
  wp (resolvedHex cf n o i v) s Q.
Proof.
  induction n as [|n IH]; intros o i v s Q H Ho Hn HQ; [lia|]. cbn [resolvedHex]. apply wp_bind, wp_get. knorm. cbv zeta.
  apply wp_bind, wp_getCharUnit; [exact H|]. intros b Hb. apply znth_range in Hb.
  repeat (lazymatch goal with |- ParserWp.wp _ (if ?b then _ else _) _ _ => destruct b end).
  4: apply wp_ret, HQ.
  all: apply IH; [exact H | lia | lia | exact HQ].
Qed.
Lemma wp_resolvedDec n : forall o i v s (Q : Z * Z -> pst -> Prop), Core s -> 0 <= o -> Z.max 0 (zlen doc - o) < Z.of_nat n -> (forall x, Q x s) ->
  wp (resolvedDec cf n o i v) s Q.
Proof.
  induction n as [|n IH]; intros o i v s Q H Ho Hn HQ; [lia|]. cbn [resolvedDec]. apply wp_bind, wp_get. knorm. cbv zeta.
  apply wp_bind, wp_getCharUnit; [exact H|]. intros b Hb. apply znth_range in Hb.
  repeat (lazymatch goal with |- ParserWp.wp _ (if ?b then _ else _) _ _ => destruct b end).
  2: apply wp_ret, HQ.
  all: apply IH; [exact H | lia | lia | exact HQ].
Qed.

(** The positions it may move: the 'a' case reads from the live reader. *)
Definition live (s s' : pst) : Prop :=
  Core s' /\ scanc s s' /\ s_roff s <= s_roff s' /\ (s_roff s <= c_end cf -> s_roff s' <= c_end cf) /\
  s_ns2 s' = s_ns2 s /\ s_prefCount s' = s_prefCount s /\ s_isXml s' = s_isXml s /\ s_defaultNs s' = s_defaultNs s /\ s_prefUrls s' = s_prefUrls s.
Lemma live_refl s : Core s -> s_off s = s_roff s -> live s s.
Proof. intros H Ho. split; [exact H|]. repeat split; try assumption; lia. Qed.
Lemma live_trans s s1 s2 : live s s1 -> live s1 s2 -> live s s2.
Proof.
  unfold live, scanc, scan. intros (A1 & A2 & A3 & A4 & A5 & A6 & A7 & A8 & A9) (B1 & B2 & B3 & B4 & B5 & B6 & B7 & B8 & B9).
  split; [exact B1|]. repeat split; try (intuition congruence); try lia.
Qed.
Lemma live_off s s' : live s s' -> s_off s' = s_roff s'.
Proof. unfold live, scanc, scan. tauto. Qed.

Lemma rdLong_noErr r o e : rdGetLongCharAt r o <> Err e.
Proof. unfold rdGetLongCharAt. repeat destruct (znth _ _); try destruct (_ =? _); try destruct (_ =? _); discriminate. Qed.
Lemma wp_getCharResolved o s (Q : Z -> pst -> Prop) : Core s -> s_off s = s_roff s ->
  (forall x s', live s s' -> Q x s') -> wp (getCharResolved cf o) s Q.
Proof.
  intros H Ho HQ. facts H. assert (HQ0 : forall x, Q x s) by (intros x; apply HQ, live_refl; assumption).
  unfold getCharResolved. apply wp_bind, wp_get. apply wp_bind, wp_lift_ns; [apply H | intros e E; elim (rdLong_noErr _ _ _ E) | apply rdLong_panic |]. intros c64 _.
  destruct (negb _); [apply wp_ret, HQ0|]. cbv zeta. knorm.
  apply wp_bind, wp_getCharUnit; [exact H|]. intros b Hb. apply wp_bind.
  match goal with |- ParserWp.wp _ _ _ ?R => assert (R0 : forall x, R x s) by (intros x; apply wp_ret, HQ0); assert (R1 : forall x s', live s s' -> R x s') by (intros x s' L; apply wp_ret, HQ, L) end.
  destruct (b2z b =? 35).
  { apply wp_bind, wp_getCharUnit; [exact H|]. intros b1 Hb1. apply znth_range in Hb1.
    destruct (_ =? 120).
    - apply wp_resolvedHex; [exact H | lia | unfold fuel, zlen in *; lia | exact R0].
    - apply wp_resolvedDec; [exact H | lia | unfold fuel, zlen in *; lia | exact R0]. }
  destruct (b2z b =? 97).
  { apply wp_bind. apply (wp_getChar cf Hend); [exact H|]. intros b1 Hb1 Hr1.
    assert (L : live s (mv (s_roff s + 1) s)).
    { assert (ParserWp.Core cf (mv (s_roff s + 1) s)) by core. unfold live, scanc, scan. unfold mv in *. split; [assumption|]. psimp. repeat split; try assumption; lia. }
    set (s1 := mv _ _) in *. clearbody s1. pose proof (proj1 L) as HC1.
    destruct (_ =? 109); [|destruct (_ =? 112)].
    - apply wp_bind, wp_resolvedSeq; [exact HC1|]. apply wp_ret, R1, L.
    - apply wp_bind, wp_resolvedSeq; [exact HC1|]. apply wp_ret, R1, L.
    - apply wp_ret, R1, L. }
  destruct (b2z b =? 113); [apply wp_bind, wp_resolvedSeq; [exact H|]; apply wp_ret, R0|].
  destruct (_ || _); [apply wp_bind, wp_resolvedSeq; [exact H|]; apply wp_ret, R0|].
  apply wp_ret, R0.
Qed.
(** Without a long reference the value is below 2^28 and the width is between one and
    eleven. *)
Lemma long_dec (l : list byte) : long_reference l \/ ~ long_reference l.
Proof.
  induction l as [|x l IH].
  { right. intros (a & b & E & _). destruct a; discriminate E. }
  destruct IH as [(a & b & -> & N)|IH]; [left; exists (x :: a), b; auto|].
  assert (D : (exists b, x :: l = x26 :: x23 :: b /\ ~ In x3b (firstn 9 b)) \/ ~ (exists b, x :: l = x26 :: x23 :: b /\ ~ In x3b (firstn 9 b))).
  { destruct (Byte.byte_eq_dec x x26) as [->|N]; [|right; intros (b & E & _); injection E as E1 E2; congruence].
    destruct l as [|y l]; [right; intros (b & E & _); discriminate E|]. destruct (Byte.byte_eq_dec y x23) as [->|N]; [|right; intros (b & E & _); injection E as E1 E2; congruence].
    destruct (in_dec Byte.byte_eq_dec x3b (firstn 9 l)) as [I|I]; [right; intros (b & E & X); injection E as <-; contradiction | left; exists l; auto]. }
  destruct D as [(b & E & N)|D]; [left; exists [], b; auto|].
  right. intros (a & b & E & N). destruct a as [|y a]; [apply D; exists b; auto|]. injection E as -> E. apply IH. exists a, b. auto.
Qed.
Lemma ref_ends (l : list byte) o : ~ long_reference l -> znth l o = Some x26 -> znth l (o + 1) = Some x23 ->
  exists p, o + 2 <= p <= o + 10 /\ znth l p = Some x3b.
Proof.
  intros N E1 E2. pose proof (znth_range _ _ _ E1) as R1. pose proof (znth_range _ _ _ E2) as R2.
  destruct (in_dec Byte.byte_eq_dec x3b (firstn 9 (skipn (Z.to_nat (o + 2)) l))) as [I|I].
  - apply In_nth_error in I. destruct I as (k & K). pose proof (proj1 (nth_error_Some _ k) ltac:(rewrite K; discriminate)) as L. rewrite firstn_length in L.
    exists (o + 2 + Z.of_nat k). split; [lia|]. rewrite znth_nth by lia.
    assert (X : nth_error (skipn (Z.to_nat (o + 2)) l) k = Some x3b).
    { rewrite <- (firstn_skipn 9 (skipn (Z.to_nat (o + 2)) l)). rewrite nth_error_app1; [exact K|]. rewrite firstn_length. exact L. }
    rewrite <- (firstn_skipn (Z.to_nat (o + 2)) l), nth_error_app2; rewrite firstn_length; unfold zlen in *; [|lia].
    replace (_ - _)%nat with k by lia. exact X.
  - elim N. exists (firstn (Z.to_nat o) l), (skipn (Z.to_nat (o + 2)) l). split; [|exact I].
    rewrite <- (firstn_skipn (Z.to_nat o) l) at 1. f_equal.
    rewrite znth_nth in E1, E2 by lia. revert E1 E2. replace (Z.to_nat (o + 1)) with (S (Z.to_nat o)) by lia. replace (Z.to_nat (o + 2)) with (S (S (Z.to_nat o))) by lia.
    clear. revert l. induction (Z.to_nat o) as [|n IH]; intros l E1 E2.
    + destruct l as [|x [|y l]]; try discriminate E1; try discriminate E2. injection E1 as ->. injection E2 as ->. reflexivity.
    + destruct l as [|x l]; [discriminate E1|]. exact (IH l E1 E2).
Qed.
Lemma wp_resolvedHex_short n : forall (k : nat) o i v s (Q : Z * Z -> pst -> Prop), Core s -> 0 <= o < zlen doc -> zlen doc - o < Z.of_nat n ->
  (exists p, o < p <= o + 1 + Z.of_nat k /\ znth doc p = Some x3b) -> (k <= 7)%nat -> 0 <= v < 2^(4 * (7 - Z.of_nat k)) ->
  (forall v' i', 0 <= v' < 2^28 -> i <= i' <= i + 2 + Z.of_nat k -> Q (v', i') s) -> wp (resolvedHex cf n o i v) s Q.
Proof.
  induction n as [|n IH]; intros k o i v s Q H Ho Hn (p & Hp & Ep) Hk Hv HQ; [lia|]. cbn [resolvedHex]. apply wp_bind, wp_get. knorm. cbv zeta.
  apply wp_bind, wp_getCharUnit; [exact H|]. intros b Hb. pose proof (znth_range _ _ _ Hb) as Rb.
  assert (Pw : 2^(4 * (7 - Z.of_nat k)) <= 2^28) by (apply Z.pow_le_mono_r; lia).
  destruct (Z.eq_dec p (o + 1)) as [->|Np].
  { rewrite Ep in Hb. injection Hb as <-. change (b2z x3b) with 59. cbn [Z.leb Z.eqb Z.compare andb Pos.compare Pos.compare_cont Pos.eqb]. apply wp_ret, HQ; lia. }
  destruct k as [|k]; [lia|].
  assert (P' : exists p0, o + 1 < p0 <= o + 1 + 1 + Z.of_nat k /\ znth doc p0 = Some x3b) by (exists p; split; [lia | exact Ep]).
  assert (V16 : 2^(4 * (7 - Z.of_nat k)) = 16 * 2^(4 * (7 - Z.of_nat (S k)))).
  { change 16 with (2^4). rewrite <- Z.pow_add_r by lia. f_equal. lia. }
  assert (Pw' : 2^(4 * (7 - Z.of_nat k)) <= 2^28) by (apply Z.pow_le_mono_r; lia).
  assert (Hd : forall d, 0 <= d < 16 -> 0 <= wrap32 (wrap32 (Z.shiftl v 4) + d) < 2^(4 * (7 - Z.of_nat k))).
  { intros d Hd. rewrite Z.shiftl_mul_pow2 by lia. rewrite (wrap32_id (v * 2^4)) by lia. rewrite wrap32_id by lia. lia. }
  repeat (lazymatch goal with |- ParserWp.wp _ (if ?b then _ else _) _ _ => destruct b eqn:? end).
  4: apply wp_ret, HQ; lia.
  all: apply (IH k); [exact H | lia | lia | exact P' | lia | first [apply Hd; lia | lia] | intros v' i' X Y; apply HQ; lia].
Qed.
Lemma wp_resolvedDec_short n : forall (k : nat) o i v s (Q : Z * Z -> pst -> Prop), Core s -> 0 <= o -> Z.max 0 (zlen doc - o) < Z.of_nat n ->
  (exists p, o <= p <= o + Z.of_nat k /\ znth doc p = Some x3b) -> (k <= 8)%nat -> 0 <= v < 10^(8 - Z.of_nat k) ->
  (forall v' i', 0 <= v' < 2^28 -> i <= i' <= i + 1 + Z.of_nat k -> Q (v', i') s) -> wp (resolvedDec cf n o i v) s Q.
Proof.
  induction n as [|n IH]; intros k o i v s Q H Ho Hn (p & Hp & Ep) Hk Hv HQ; [lia|]. cbn [resolvedDec]. apply wp_bind, wp_get. knorm. cbv zeta.
  apply wp_bind, wp_getCharUnit; [exact H|]. intros b Hb. pose proof (znth_range _ _ _ Hb) as Rb.
  assert (Pw : 10^(8 - Z.of_nat k) <= 10^8) by (apply Z.pow_le_mono_r; lia).
  destruct (Z.eq_dec p o) as [->|Np].
  { rewrite Ep in Hb. injection Hb as <-. change (b2z x3b) with 59. cbn [Z.leb Z.eqb Z.compare andb Pos.compare Pos.compare_cont Pos.eqb]. apply wp_ret, HQ; lia. }
  destruct k as [|k]; [lia|].
  assert (P' : exists p0, o + 1 <= p0 <= o + 1 + Z.of_nat k /\ znth doc p0 = Some x3b) by (exists p; split; [lia | exact Ep]).
  assert (V10 : 10^(8 - Z.of_nat k) = 10 * 10^(8 - Z.of_nat (S k))).
  { replace (8 - Z.of_nat k) with (Z.succ (8 - Z.of_nat (S k))) by lia. apply Z.pow_succ_r. lia. }
  assert (Pw' : 10^(8 - Z.of_nat k) <= 10^8) by (apply Z.pow_le_mono_r; lia).
  assert (Hd : forall d, 0 <= d < 10 -> 0 <= wrap32 (wrap32 (v * 10) + d) < 10^(8 - Z.of_nat k)).
  { intros d Hd. rewrite (wrap32_id (v * 10)) by lia. rewrite wrap32_id by lia. lia. }
  repeat (lazymatch goal with |- ParserWp.wp _ (if ?b then _ else _) _ _ => destruct b eqn:? end).
  2: apply wp_ret, HQ; lia.
  all: apply (IH k); [exact H | lia | lia | exact P' | lia | first [apply Hd; lia | lia] | intros v' i' X Y; apply HQ; lia].
Qed.
Lemma rdLong_width r o x : rdGetLongCharAt r o = Ok x ->
  0 <= o < zlen (rd_doc r) /\ 1 <= Z.shiftr x 32 <= 2 /\ ((wrap32 x =? 38) = true -> znth (rd_doc r) o = Some x26).
Proof.
  unfold rdGetLongCharAt.
  destruct (znth (rd_doc r) o) as [b|] eqn:Eb; [|discriminate].
  pose proof (znth_range _ _ _ Eb) as R.
  assert (W1 : ((wrap32 (Z.lor (Z.shiftl 1 32) (b2z b)) =? 38) = true -> Some b = Some x26) /\ Z.shiftr (Z.lor (Z.shiftl 1 32) (b2z b)) 32 = 1).
  { destruct b; split; try reflexivity; intros X; discriminate X. }
  destruct W1 as [W1 W2]. revert W1 W2. generalize (Z.lor (Z.shiftl 1 32) (b2z b)). intros v W1 W2.
  assert (V1 : (wrap32 (Z.lor (Z.shiftl 2 32) 10) =? 38) = false /\ Z.shiftr (Z.lor (Z.shiftl 2 32) 10) 32 = 2) by (split; reflexivity).
  revert V1. generalize (Z.lor (Z.shiftl 2 32) 10). intros v2 [V1 V2].
  destruct (b2z b =? 13); [destruct (znth (rd_doc r) (o + 1)) as [b2|]; [destruct (b2z b2 =? 10)|discriminate]|];
    intros E; injection E as <-; (split; [exact R | split; [lia | first [assumption | intros X; congruence]]]).
Qed.
Lemma packed v i : 0 <= v < 2^28 -> 1 <= i <= 11 -> Z.shiftr (Z.lor v (shl64 i 32)) 32 = i.
Proof.
  intros Hv Hi. unfold shl64. rewrite Z.shiftl_mul_pow2 by lia. replace (wrap64 (i * 2^32)) with (i * 2^32) by (unfold wrap64; lia).
  rewrite Z.shiftr_lor, !Z.shiftr_div_pow2 by lia. rewrite Z.div_mul by lia. rewrite Z.div_small by lia. apply Z.lor_0_l.
Qed.
Lemma wp_getCharResolved_short o s (Q : Z -> pst -> Prop) : Core s -> s_off s = s_roff s -> ~ long_reference doc -> -2^31 <= o < 2^31 + 11 ->
  (forall x s', live s s' -> 0 <= wrap32 o < zlen doc -> 1 <= Z.shiftr x 32 <= 11 -> Q x s') -> wp (getCharResolved cf o) s Q.
Proof.
  intros H Ho HN Bo HQ. facts H.
  unfold getCharResolved. apply wp_bind, wp_get. apply wp_bind, wp_lift_ns; [apply H | intros e E; elim (rdLong_noErr _ _ _ E) | apply rdLong_panic |]. intros c64 E.
  destruct (rdLong_width (rdr cf s) _ _ E) as (R & W & Amp). change (rd_doc (rdr cf s)) with doc in *.
  destruct (wrap32 c64 =? CH_AMP) eqn:EA; [|apply wp_ret, HQ; [apply live_refl; assumption | assumption | lia]]. cbn [negb]. specialize (Amp eq_refl). cbv zeta. knorm.
  apply wp_bind, wp_getCharUnit; [exact H|]. intros b Hb. apply wp_bind.
  match goal with |- ParserWp.wp _ _ _ ?R => assert (R1 : forall v i s', live s s' -> 0 <= v < 2^28 -> 1 <= i <= 11 -> R (v, i) s') end.
  { intros v i s' L Hv Hi. apply wp_ret, HQ; [exact L | exact R |]. cbn [fst snd]. rewrite (packed v i Hv Hi). exact Hi. }
  assert (R0 := fun v i => R1 v i s (live_refl s H Ho)).
  destruct (b2z b =? 35) eqn:EH.
  { assert (b = x23) as -> by (destruct b; first [reflexivity | discriminate EH]).
    assert (Ow : wrap32 o = o). { destruct (Z_lt_ge_dec o (2^31)); [apply wrap32_id; lia|]. exfalso. unfold wrap32 in R. lia. }
    rewrite Ow in Amp. destruct (ref_ends doc o HN Amp Hb) as (p & Hp & Ep).
    apply wp_bind, wp_getCharUnit; [exact H|]. intros b1 Hb1. pose proof (znth_range _ _ _ Hb1) as Rb1. replace (o + 1 + 1) with (o + 2) in * by lia.
    destruct (_ =? 120) eqn:EX.
    - assert (p <> o + 2) by (intros ->; rewrite Ep in Hb1; injection Hb1 as <-; discriminate EX).
      apply (wp_resolvedHex_short _ 7); [exact H | lia | unfold fuel, zlen in *; lia | exists p; split; [lia | exact Ep] | lia | cbn; lia |].
      intros v' i' Hv Hi. change (shl64 2 (1 - 1)) with 2 in Hi. apply R0; lia.
    - apply (wp_resolvedDec_short _ 8); [exact H | lia | unfold fuel, zlen in *; lia | exists p; split; [lia | exact Ep] | lia | cbn; lia |].
      intros v' i' Hv Hi. change (shl64 2 (1 - 1)) with 2 in Hi. apply R0; lia. }
  change (0 <? FormatUtf16BE) with true. cbv iota. change (shl64 2 (1 - 1)) with 2.
  destruct (b2z b =? 97).
  { apply wp_bind. apply (wp_getChar cf Hend); [exact H|]. intros b1 Hb1 Hr1.
    assert (L : live s (mv (s_roff s + 1) s)).
    { assert (ParserWp.Core cf (mv (s_roff s + 1) s)) by core. unfold live, scanc, scan. unfold mv in *. split; [assumption|]. psimp. repeat split; try assumption; lia. }
    set (s1 := mv _ _) in *. clearbody s1. pose proof (proj1 L) as HC1.
    destruct (_ =? 109); [|destruct (_ =? 112)].
    - apply wp_bind, wp_resolvedSeq; [exact HC1|]. apply wp_ret, R1; [exact L | lia | lia].
    - apply wp_bind, wp_resolvedSeq; [exact HC1|]. apply wp_ret, R1; [exact L | lia | lia].
    - apply wp_ret, R1; [exact L | lia | lia]. }
  destruct (b2z b =? 113); [apply wp_bind, wp_resolvedSeq; [exact H|]; apply wp_ret, R0; lia|].
  destruct (_ || _); [apply wp_bind, wp_resolvedSeq; [exact H|]; apply wp_ret, R0; [match goal with |- context [if ?c then _ else _] => destruct c end; lia | lia]|].
  apply wp_ret, R0; lia.
Qed.

Lemma wp_nsUrlLoop pat : forall o g s (Q : option Z -> pst -> Prop), Core s -> s_off s = s_roff s ->
  (forall x s', live s s' -> Q x s') -> wp (nsUrlLoop cf pat o g) s Q.
Proof.
  induction pat as [|c t IH]; intros o g s Q H Ho HQ; cbn [nsUrlLoop]; [apply wp_ret, HQ, live_refl; assumption|].
  destruct (o <? g); [|apply wp_ret, HQ, live_refl; assumption].
  apply wp_bind, wp_getCharResolved; [assumption..|]. intros x s1 L1. pose proof (proj1 L1). pose proof (live_off _ _ L1).
  destruct (c =? x); [|apply wp_ret, HQ, L1].
  apply IH; [assumption..|]. intros y s2 L2. apply HQ, (live_trans _ _ _ L1 L2).
Qed.
Lemma wp_identifyNsUrl s (Q : nsUrl -> pst -> Prop) : Core s -> s_off s = s_roff s ->
  (forall x s', live s s' -> Q x s') -> wp (identifyNsUrl cf) s Q.
Proof.
  intros H Ho HQ. unfold identifyNsUrl. apply wp_bind, wp_get. cbv zeta.
  destruct (_ || _); [apply wp_ret, HQ, live_refl; assumption|].
  apply wp_bind, wp_nsUrlLoop; [assumption..|]. intros r1 s1 L1. pose proof (proj1 L1). pose proof (live_off _ _ L1).
  destruct r1 as [o1|]; [|apply wp_ret, HQ, L1].
  apply wp_bind, wp_nsUrlLoop; [assumption..|]. intros r2 s2 L2. pose proof (proj1 L2). pose proof (live_off _ _ L2).
  pose proof (live_trans _ _ _ L1 L2) as L12. destruct r2 as [o2|]; [|apply wp_ret, HQ, L12].
  destruct (_ =? _); [apply wp_ret, HQ, L12|].
  apply wp_bind, wp_nsUrlLoop; [assumption..|]. intros r3 s3 L3. pose proof (live_trans _ _ _ L12 L3) as L13.
  destruct r3 as [o3|]; [|apply wp_ret, HQ, L13]. destruct (_ =? _); apply wp_ret, HQ, L13.
Qed.

(** ** Qualifying attributes *)
Lemma wp_qualifyAttrLoop n : forall i pl po s (Q : Z -> pst -> Prop), bufsOk s -> (forall b, Q b s) ->
  wp (qualifyAttrLoop cf n i pl po) s Q.
Proof.
  induction n as [|n IH]; intros i pl po s Q Hb HQ; cbn [qualifyAttrLoop]; [apply wp_ret, HQ|].
  apply wp_bind, wp_get. apply wp_bind, wp_lift_ns; [exact Hb | apply upper_err | apply upper_panic |]. intros u _. 
  destruct (_ =? _); [|apply IH; assumption].
  apply wp_bind, wp_lift_ns; [exact Hb | apply lower_err | apply lower_panic |]. intros l _.
  apply wp_bind, wp_matchBytes_ns. intros j. destruct (_ =? _); [apply wp_ret, HQ | apply IH; assumption].
Qed.
(** [prefUrls] is the only field that changes *)
Lemma pref_bound s : Core s -> s_prefCount s <= 256.
Proof. intros H. pose proof (proj2 (proj2 (k_attrs _ _ H))). pose proof (proj1 (proj2 (k_fit _ _ H))). lia. Qed.
Lemma wp_prefNameAt j s (Q : Z -> pst -> Prop) : Core s -> 0 <= j < 256 -> (forall e, znth (s_prefNames s) j = Some e -> Q e s) -> wp (prefNameAt j) s Q.
Proof.
  intros H Hj HQ. pose proof (proj1 (k_fit _ _ H)) as L. unfold ParserWp.wp, prefNameAt.
  destruct (znth _ j) eqn:E; [apply HQ; reflexivity|]. apply znth_none_iff in E. lia.
Qed.
Lemma wp_prefUrlAt j s (Q : Z -> pst -> Prop) : 0 <= j < zlen (s_prefUrls s) -> (forall e, Q e s) -> wp (prefUrlAt j) s Q.
Proof. intros Hj HQ. unfold ParserWp.wp, prefUrlAt. destruct (proj2 (znth_some_iff (s_prefUrls s) j) Hj) as [v ->]. apply HQ. Qed.
Lemma wp_qualifyAttrsLoop n : forall j s (Q : unit -> pst -> Prop), Core s -> 0 <= j -> j + Z.of_nat n <= 256 -> (forall u, zlen (s_prefUrls s) + Z.of_nat n <= zlen u -> Q tt (set_prefUrls u s)) ->
  wp (qualifyAttrsLoop cf n j) s Q.
Proof.
  induction n as [|n IH]; intros j s Q H Hj Hn HQ; cbn [qualifyAttrsLoop]; [apply wp_ret; exact (HQ (s_prefUrls s) ltac:(lia))|].
  apply wp_bind, wp_prefNameAt; [exact H | lia |]. intros e _. apply wp_bind, wp_get. apply wp_bind, wp_qualifyAttrLoop; [apply H|].
  intros i. destruct (i <? 0); [steps|]. apply wp_bind, wp_get. apply wp_bind, wp_modify.
  apply IH; [core | lia | lia |]. intros u Hu. psimp_in Hu. rewrite zlen_app in Hu. change (zlen [i]) with 1 in Hu. exact (HQ u ltac:(lia)).
Qed.
Lemma wp_urlOf i s (Q : Z * Z -> pst -> Prop) : bufsOk s -> 0 <= i < zlen (s_prefUrls s) -> (forall o l, -2^31 <= o < 2^31 -> Q (o, l) s) -> wp (urlOf i) s Q.
Proof.
  intros Hb Hi HQ. unfold urlOf. apply wp_bind, wp_prefUrlAt; [exact Hi|]. intros u. apply wp_bind, wp_get.
  apply wp_bind, wp_lift_ns; [exact Hb | apply lower_err | apply lower_panic |]. intros l _.
  apply wp_bind, wp_lift_ns; [exact Hb | apply upper_err | apply upper_panic |]. intros o E. apply wp_ret, HQ, (upper_range _ _ _ E).
Qed.
Lemma wp_matchUrlLoop n : forall ao al bo bl s (Q : bool -> pst -> Prop), Core s -> s_off s = s_roff s ->
  long_reference doc \/ (-2^31 <= ao < 2^31 + 11 /\ Z.max 0 (zlen doc - ao) < Z.of_nat n) \/ (-2^31 <= ao < 0 /\ n <> O) ->
  (forall b s', live s s' -> Q b s') -> wp (matchUrlLoop cf n ao al bo bl) s Q.
Proof.
  induction n as [|n IH]; intros ao al bo bl s Q H Ho Hm HQ; cbn [matchUrlLoop].
  { destruct Hm as [Hm|Hm]; [|lia]. split; assumption. }
  destruct (_ && _); [|apply wp_ret, HQ, live_refl; assumption].
  destruct (long_dec doc) as [I|NI].
  - apply wp_bind, wp_getCharResolved; [assumption..|]. intros ca s1 L1. pose proof (proj1 L1). pose proof (live_off _ _ L1).
    apply wp_bind, wp_getCharResolved; [assumption..|]. intros cb s2 L2. pose proof (proj1 L2). pose proof (live_off _ _ L2).
    pose proof (live_trans _ _ _ L1 L2) as L12. destruct (_ =? _); [|apply wp_ret, HQ, L12].
    apply IH; [assumption..|left; exact I|]. intros b s3 L3. apply HQ, (live_trans _ _ _ L12 L3).
  - destruct Hm as [Hm|Hm]; [contradiction|].
    apply wp_bind, wp_getCharResolved_short; [assumption..|lia|]. intros ca s1 L1 Ra Wa. pose proof (proj1 L1). pose proof (live_off _ _ L1).
    apply wp_bind, wp_getCharResolved; [assumption..|]. intros cb s2 L2. pose proof (proj1 L2). pose proof (live_off _ _ L2).
    pose proof (live_trans _ _ _ L1 L2) as L12. destruct (_ =? _); [|apply wp_ret, HQ, L12].
    assert (A : 0 <= ao < 2^31 /\ wrap32 ao = ao).
    { destruct (Z_lt_ge_dec ao 0); [rewrite wrap32_id in Ra; lia|]. destruct (Z_lt_ge_dec ao (2^31)); [split; [lia | apply wrap32_id; lia]|].
      exfalso. unfold wrap32 in Ra. lia. }
    destruct A as [A1 A2]. rewrite A2 in Ra.
    apply IH; [assumption..|right; left; lia|]. intros b s3 L3. apply HQ, (live_trans _ _ _ L12 L3).
Qed.
Lemma wp_matchUrl ao al bo bl s (Q : bool -> pst -> Prop) : Core s -> s_off s = s_roff s -> -2^31 <= ao < 2^31 ->
  (forall b s', live s s' -> Q b s') -> wp (matchUrl cf ao al bo bl) s Q.
Proof.
  intros H Ho Ha. apply wp_matchUrlLoop; [assumption..|]. right.
  destruct (Z_lt_ge_dec ao 0); [right; split; [lia | discriminate]|]. left. unfold fuel, zlen. lia.
Qed.

(** [prefok] for the entries already looked at *)
Lemma prefLen_range e : 0 <= prefLen e < 2^16.
Proof.
  unfold prefLen. assert (E : Z.land e 0xFFFF0000 = Z.land (Z.shiftr e 16) (Z.ones 16) * 2^16).
  { rewrite <- Z.shiftl_mul_pow2 by lia. change 0xFFFF0000 with (Z.shiftl (Z.ones 16) 16).
    apply Z.bits_inj'. intros k Hk. rewrite Z.land_spec, !Z.shiftl_spec by lia.
    destruct (Z_lt_ge_dec k 16).
    - rewrite !(Z.testbit_neg_r _ (k - 16)) by lia. apply andb_false_r.
    - rewrite Z.land_spec, Z.shiftr_spec by lia. replace (k - 16 + 16) with k by lia. reflexivity. }
  rewrite E, Z.shiftr_div_pow2 by lia. rewrite Z.div_mul by lia. rewrite Z.land_ones by lia.
  pose proof (Z.mod_pos_bound (Z.shiftr e 16) (2^16) ltac:(lia)). rewrite wrap32_id; lia.
Qed.
Definition preferTo (s : pst) (n : Z) : Prop := forall j e, 0 <= j < n -> znth (s_prefNames s) j = Some e -> c_docOffset cf <= prefOs e.
Lemma live_pref s s' : live s s' -> preferTo s' (s_prefCount s').
Proof. intros (H & _). exact (proj2 (k_prefs _ _ H)). Qed.
Lemma wp_qualUniqueInner n : forall j o pl u s (Q : unit -> pst -> Prop), Core s -> s_off s = s_roff s -> -2^31 <= fst u < 2^31 ->
  0 <= j -> j + Z.of_nat n <= Z.max j (s_prefCount s) -> s_prefCount s <= zlen (s_prefUrls s) ->
  (forall s', live s s' -> Q tt s') -> wp (qualUniqueInner cf n j o pl u) s Q.
Proof.
  induction n as [|n IH]; intros j o pl u s Q H Ho Hu Hj Hn Hp HQ; cbn [qualUniqueInner]; [apply wp_ret, HQ, live_refl; assumption|].
  pose proof (pref_bound s H). apply wp_bind, wp_prefNameAt; [exact H | lia |]. intros e2 He2. apply wp_bind, wp_get. cbv zeta. apply wp_bind.
  assert (K : forall s1, live s s1 -> wp (qualUniqueInner cf n (j + 1) o pl u) s1 Q).
  { intros s1 L1. pose proof (proj1 L1). pose proof (live_off _ _ L1). apply IH; [assumption..|lia| | |].
    - assert (E : s_prefCount s1 = s_prefCount s) by apply L1. rewrite E. lia.
    - assert (E : s_prefCount s1 = s_prefCount s) by apply L1. assert (E2 : s_prefUrls s1 = s_prefUrls s) by apply L1. rewrite E, E2. exact Hp.
    - intros s2 L2. apply HQ, (live_trans _ _ _ L1 L2). }
  pose proof (live_refl s H Ho) as L0.
  destruct (pl =? _); [|apply wp_ret, K, L0].
  apply wp_bind, wp_matchBytes_ns. intros k'. destruct (_ =? _); [|apply wp_ret, K, L0].
  apply wp_bind, wp_urlOf; [apply H | lia |]. intros bo bl Hbo. cbn [fst snd].
  apply wp_bind, wp_matchUrl; [assumption..|]. intros m s1 L1. destruct m; [|apply wp_ret, K, L1].
  apply wp_parseErrAt_ns; [apply L1|]. pose proof (prefLen_range e2). facts H.
  assert (c_docOffset cf <= prefOs e2) by (apply (proj2 (k_prefs _ _ H)) with (j := j); [lia | exact He2]). lia.
Qed.
Lemma wp_qualUniqueOuter n : forall i t s (Q : unit -> pst -> Prop), Core s -> s_off s = s_roff s ->
  0 <= i -> i + Z.of_nat n <= t -> t = s_prefCount s -> t <= zlen (s_prefUrls s) -> (forall s', live s s' -> Q tt s') -> wp (qualUniqueOuter cf n i t) s Q.
Proof.
  induction n as [|n IH]; intros i t s Q H Ho Hi Hn Ht Hp HQ; cbn [qualUniqueOuter]; [apply wp_ret, HQ, live_refl; assumption|].
  pose proof (pref_bound s H). apply wp_bind, wp_prefNameAt; [exact H | lia |]. intros e He. apply wp_bind, wp_get. cbv zeta.
  apply wp_bind, wp_urlOf; [apply H | lia |]. intros ao al Hao. apply wp_bind, wp_qualUniqueInner; [assumption.. | exact Hao | lia | lia | lia |].
  intros s1 L1. pose proof (proj1 L1). pose proof (live_off _ _ L1). apply IH; [assumption..|lia|lia| | |].
  - rewrite Ht. symmetry. apply L1.
  - assert (E2 : s_prefUrls s1 = s_prefUrls s) by apply L1. rewrite E2. exact Hp.
  - intros s2 L2. apply HQ, (live_trans _ _ _ L1 L2).
Qed.
End Ns.
