(** The comparison of namespace URLs: [getCharResolved] gives the same value at
    the same position, so a URL compared with itself never differs and the loop of
    [matchUrl] does not end normally. *)
From Verif Require Import Lib XmlChar XmlCharProofs Buffer BufferProofs Reader ParserState ParserPrim ParserProc ParserMain
  SpecParse SpecChar SpecDoc SpecScope ParserWp DocScan RelAware.

Definition cst {A} (m1 m2 : M A) : Prop :=
  forall s1 s2 a1 a2 t1 t2, plain s1 -> plain s2 -> m1 s1 = ROk a1 t1 -> m2 s2 = ROk a2 t2 -> a1 = a2 /\ plain t1 /\ plain t2.
Lemma cst_ret {A} (a : A) : cst (ret a) (ret a).
Proof. intros s1 s2 a1 a2 t1 t2 P1 P2 E1 E2. injection E1 as <- <-. injection E2 as <- <-. auto. Qed.
Lemma cst_bind {A B} (m1 m2 : M A) (k1 k2 : A -> M B) : cst m1 m2 -> (forall a, cst (k1 a) (k2 a)) -> cst (bind m1 k1) (bind m2 k2).
Proof.
  intros Hm Hk s1 s2 a1 a2 t1 t2 P1 P2 E1 E2. unfold bind in *. destruct (m1 s1) as [b1 u1|?|?|] eqn:M1; try discriminate. destruct (m2 s2) as [b2 u2|?|?|] eqn:M2; try discriminate.
  destruct (Hm _ _ _ _ _ _ P1 P2 M1 M2) as (<- & Q1 & Q2). exact (Hk b1 _ _ _ _ _ _ Q1 Q2 E1 E2).
Qed.
Lemma cst_get {A B} (f : pst -> A) (k : A -> M B) : (forall s1 s2, plain s1 -> plain s2 -> cst (k (f s1)) (k (f s2))) -> cst (bind (get f) k) (bind (get f) k).
Proof. intros H s1 s2 a1 a2 t1 t2 P1 P2 E1 E2. exact (H s1 s2 P1 P2 s1 s2 a1 a2 t1 t2 P1 P2 E1 E2). Qed.
Lemma cst_fail {A} e m : cst (@fail A e) m.
Proof. intros s1 s2 a1 a2 t1 t2 P1 P2 E1. discriminate E1. Qed.
Lemma cst_diverge {A} m : cst (@diverge A) m.
Proof. intros s1 s2 a1 a2 t1 t2 P1 P2 E1. discriminate E1. Qed.

Lemma long_value r o b : znth (rd_doc r) o = Some b -> (b = x0d -> exists b2, znth (rd_doc r) (o + 1) = Some b2) ->
  exists k c, rdGetLongCharAt r o = Ok (k * 2^32 + c) /\ 1 <= k <= 2 /\ 0 <= c < 256 /\ (b <> x26 -> c <> 38).
Proof.
  intros E E2. unfold rdGetLongCharAt. rewrite E. pose proof (b2z_range b) as Hb.
  assert (W : forall k, Z.lor (Z.shiftl k 32) (b2z b) = k * 2^32 + b2z b).
  { intros k. rewrite Z.shiftl_mul_pow2 by lia. apply (lor_disjoint k (b2z b) 32); lia. }
  assert (N : b <> x26 -> b2z b <> 38) by (intros K X; apply K, b2z_inj; exact X).
  destruct (b2z b =? 13) eqn:E13.
  - apply Z.eqb_eq in E13. destruct E2 as (b2 & ->); [apply b2z_inj; exact E13|]. destruct (b2z b2 =? 10).
    + exists 2, 10. split; [reflexivity|]. lia.
    + exists 1, (b2z b). rewrite W. split; [reflexivity|]. split; [lia|]. split; [lia | exact N].
  - exists 1, (b2z b). rewrite W. split; [reflexivity|]. split; [lia|]. split; [lia | exact N].
Qed.
Lemma amp_here r o c : rdGetLongCharAt r o = Ok c -> wrap32 c = 38 -> znth (rd_doc r) o = Some x26.
Proof.
  intros E X. destruct (znth (rd_doc r) o) as [b|] eqn:Eb; [|unfold rdGetLongCharAt in E; rewrite Eb in E; discriminate].
  destruct (long_value r o b Eb) as (k & v & E1 & Hk & Hv & N).
  { intros ->. unfold rdGetLongCharAt in E. rewrite Eb in E. change (b2z x0d =? 13) with true in E. cbv iota in E. destruct (znth (rd_doc r) (o + 1)) as [b2|]; [eauto | discriminate]. }
  rewrite E in E1. assert (c = k * 2^32 + v) by congruence. subst c. f_equal. destruct (byte_eq_dec b x26) as [|Nb]; [assumption|]. specialize (N Nb). unfold wrap32 in X. lia.
Qed.

Section Url.
Variable cf : cfg.
Notation doc := (c_doc cf).
Hypothesis HD : zlen doc < 2^31.
(** Neither "&ap;" nor "&aos;" occurs. *)
Hypothesis Hap : forall i, znth doc i = Some x26 -> znth doc (i + 1) = Some x61 -> znth doc (i + 2) = Some x70 -> znth doc (i + 3) = Some x3b -> False.
Hypothesis Haos : forall i, znth doc i = Some x26 -> znth doc (i + 1) = Some x61 -> znth doc (i + 2) = Some x6f -> znth doc (i + 3) = Some x73 ->
  znth doc (i + 4) = Some x3b -> False.

Lemma cst_idx i : cst (idx cf i) (idx cf i).
Proof.
  intros s1 s2 a1 a2 t1 t2 P1 P2. unfold idx. destruct (znth doc i); [|discriminate]. intros E1 E2. injection E1 as <- <-. injection E2 as <- <-. auto.
Qed.
Lemma unit_idx o s : plain s -> getCharUnit cf o s = idx cf o s.
Proof. intros (P & _). unfold getCharUnit. rewrite bind_get. cbv beta. change (s_enc s) with (s_enc s). rewrite P. reflexivity. Qed.
Lemma cst_unit o : cst (getCharUnit cf o) (getCharUnit cf o).
Proof.
  intros s1 s2 a1 a2 t1 t2 P1 P2 E1 E2. rewrite unit_idx in E1 by exact P1. rewrite unit_idx in E2 by exact P2. eapply cst_idx; [exact P1 | exact P2 | exact E1 | exact E2].
Qed.
Lemma cst_seq l : forall o i, cst (resolvedSeq cf l o i) (resolvedSeq cf l o i).
Proof.
  induction l as [|c l IH]; intros o i; cbn [resolvedSeq]; [apply cst_ret|]. apply cst_bind; [apply cst_unit|]. intros a. destruct (a =? c); [apply IH | apply cst_fail].
Qed.
Lemma cst_hex n : forall o i v, cst (resolvedHex cf n o i v) (resolvedHex cf n o i v).
Proof.
  induction n as [|n IH]; intros o i v; cbn [resolvedHex]; [apply cst_diverge|]. apply cst_get. intros s1 s2 (_ & I1) (_ & I2). change (s_inc s1) with (s_inc s1). change (s_inc s2) with (s_inc s2). rewrite I1, I2. cbv zeta.
  apply cst_bind; [apply cst_unit|]. intros c. repeat match goal with |- cst (if ?b then _ else _) _ => destruct b end; apply IH || apply cst_ret.
Qed.
Lemma cst_dec n : forall o i v, cst (resolvedDec cf n o i v) (resolvedDec cf n o i v).
Proof.
  induction n as [|n IH]; intros o i v; cbn [resolvedDec]; [apply cst_diverge|]. apply cst_get. intros s1 s2 (_ & I1) (_ & I2). change (s_inc s1) with (s_inc s1). change (s_inc s2) with (s_inc s2). rewrite I1, I2. cbv zeta.
  apply cst_bind; [apply cst_unit|]. intros c. repeat match goal with |- cst (if ?b then _ else _) _ => destruct b end; apply IH || apply cst_ret.
Qed.
Lemma seq_inv l : forall o s u s', plain s -> resolvedSeq cf (map b2z l) o 1 s = ROk u s' ->
  forall i b, nth_error l i = Some b -> znth doc (o + Z.of_nat i) = Some b.
Proof.
  induction l as [|c l IH]; intros o s u s' P E i b Hi; [destruct i; discriminate Hi|]. cbn [map resolvedSeq] in E.
  unfold bind in E. rewrite unit_idx in E by exact P. unfold idx in E. destruct (znth doc o) as [x|] eqn:Ex; [|discriminate]. rewrite b2z_eqb in E.
  destruct (Byte.eqb x c) eqn:Ec; [|discriminate]. apply Byte.byte_dec_bl in Ec. subst x. destruct i as [|i]; cbn in Hi.
  - rewrite Z.add_0_r. congruence.
  - replace (o + Z.of_nat (S i)) with (o + 1 + Z.of_nat i) by lia. eapply IH; eassumption.
Qed.
(** The live reader may be moved. *)
Lemma getChar_plain s a s' : plain s -> getChar cf s = ROk a s' -> plain s'.
Proof.
  intros P. unfold getChar. destruct (rdGetChar (rdr cf s)) as [r o]. destruct o; try discriminate; intros E; injection E as <- <-; exact P.
Qed.
Lemma cst_bind_unit {B} o (k1 k2 : Z -> M B) : (forall b, znth doc o = Some b -> cst (k1 (b2z b)) (k2 (b2z b))) -> cst (bind (getCharUnit cf o) k1) (bind (getCharUnit cf o) k2).
Proof.
  intros H s1 s2 a1 a2 t1 t2 P1 P2 E1 E2. unfold bind in E1, E2. rewrite unit_idx in E1 by exact P1. rewrite unit_idx in E2 by exact P2. unfold idx in E1, E2.
  destruct (znth doc o) as [b|]; [|discriminate]. exact (H b eq_refl _ _ _ _ _ _ P1 P2 E1 E2).
Qed.
Lemma cst_lift {B} a (k1 k2 : Z -> M B) : cst (k1 a) (k2 a) -> cst (bind (lift (Ok a)) k1) (bind (lift (Ok a)) k2).
Proof. intros H. exact H. Qed.
Lemma amp_a o v s a s' : znth doc o = Some x26 -> znth doc (o + 1) = Some x61 -> plain s ->
  bind (getChar cf) (fun c2 =>
    if c2 =? 109 then resolvedSeq cf (codes "p;") (o + 1 + 1) 1 ;;; ret (CH_AMP, 5)
    else if c2 =? 112 then resolvedSeq cf (codes "os;") (o + 1 + 1) 1 ;;; ret (CH_SQ, 5)
    else ret (0, v)) s = ROk a s' -> a = (0, v) /\ plain s'.
Proof.
  intros H0 H1 P E. unfold bind at 1 in E. destruct (getChar cf s) as [c2 s1|?|?|] eqn:Eg; try discriminate. apply getChar_plain in Eg; [|exact P].
  destruct (c2 =? 109); [|destruct (c2 =? 112)].
  - exfalso. unfold bind in E. destruct (resolvedSeq cf (codes "p;") (o + 1 + 1) 1 s1) as [u s2|?|?|] eqn:Es; try discriminate.
    pose proof (seq_inv [x70; x3b] _ _ _ _ Eg Es 0 _ eq_refl) as A. pose proof (seq_inv [x70; x3b] _ _ _ _ Eg Es 1 _ eq_refl) as B.
    cbn in A, B. apply (Hap o H0 H1); [rewrite <- A | rewrite <- B]; f_equal; lia.
  - exfalso. unfold bind in E. destruct (resolvedSeq cf (codes "os;") (o + 1 + 1) 1 s1) as [u s2|?|?|] eqn:Es; try discriminate.
    pose proof (seq_inv [x6f; x73; x3b] _ _ _ _ Eg Es 0 _ eq_refl) as A. pose proof (seq_inv [x6f; x73; x3b] _ _ _ _ Eg Es 1 _ eq_refl) as B.
    pose proof (seq_inv [x6f; x73; x3b] _ _ _ _ Eg Es 2 _ eq_refl) as C.
    cbn in A, B, C. apply (Haos o H0 H1); [rewrite <- A | rewrite <- B | rewrite <- C]; f_equal; lia.
  - injection E as <- <-. auto.
Qed.
Lemma resolved_const o : cst (getCharResolved cf o) (getCharResolved cf o).
Proof.
  unfold getCharResolved. apply cst_get. intros s1 s2 P1 P2. pose proof P1 as (E1 & I1). pose proof P2 as (E2 & I2).
  change (rdGetLongCharAt (rdr cf s1) (wrap32 o)) with (rdGetLongCharAt (rdr cf s2) (wrap32 o)).
  destruct (rdGetLongCharAt (rdr cf s2) (wrap32 o)) as [c64|e|w] eqn:El; [|intros ? ? ? ? ? ? ? ? X; discriminate X..].
  apply cst_lift. destruct (wrap32 c64 =? CH_AMP) eqn:Ec; cbn [negb]; [|apply cst_ret].
  apply Z.eqb_eq in Ec. apply amp_here in El; [|exact Ec]. change (rd_doc (rdr cf s2)) with doc in El.
  cbv zeta. change (s_inc s1) with (s_inc s1). change (s_inc s2) with (s_inc s2). change (s_enc s1) with (s_enc s1). change (s_enc s2) with (s_enc s2).
  rewrite I1, I2, E1, E2. change (0 <? FormatUtf16BE) with true. cbv iota.
  apply cst_bind_unit. intros b Hb.
  assert (Eo : wrap32 o = o) by (pose proof (znth_range _ _ _ El); pose proof (znth_range _ _ _ Hb); unfold wrap32 in *; lia). rewrite Eo in El.
  apply cst_bind; [|intros vi; apply cst_ret].
  destruct (b2z b =? CH_HASH); [apply cst_bind; [apply cst_unit|]; intros c1; destruct (c1 =? 120); [apply cst_hex | apply cst_dec]|].
  destruct (b2z b =? 97) eqn:E97.
  { assert (b = x61) by (apply b2z_inj; apply Z.eqb_eq in E97; exact E97). subst b.
    intros u1 u2 a1 a2 t1 t2 Q1 Q2 F1 F2. apply (amp_a o _ _ _ _ El Hb Q1) in F1. apply (amp_a o _ _ _ _ El Hb Q2) in F2. destruct F1, F2. subst. auto. }
  destruct (b2z b =? 113); [apply cst_bind; [apply cst_seq | intros; apply cst_ret]|].
  destruct ((b2z b =? 103) || (b2z b =? 108)); [apply cst_bind; [apply cst_seq | intros; apply cst_ret]|]. apply cst_ret.
Qed.
Lemma resolved_plain o s a s' : plain s -> getCharResolved cf o s = ROk a s' -> plain s'.
Proof. intros P E. exact (proj1 (proj2 (resolved_const o s s a a s' s' P P E E))). Qed.
Lemma matchUrl_never n : forall o l s b s', 0 < l -> plain s -> matchUrlLoop cf n o l o l s <> ROk b s'.
Proof.
  induction n as [|n IH]; intros o l s b s' Hl P E; [discriminate E|]. cbn [matchUrlLoop] in E. destruct (Z.ltb_spec o (o + l)); [|lia]. cbn [andb] in E.
  unfold bind in E. destruct (getCharResolved cf o s) as [ca s1|?|?|] eqn:E1; try discriminate. destruct (getCharResolved cf o s1) as [cb s2|?|?|] eqn:E2; try discriminate.
  pose proof (resolved_plain _ _ _ _ P E1) as P1. destruct (resolved_const o _ _ _ _ _ _ P P1 E1 E2) as (<- & _ & P2). rewrite Z.eqb_refl in E.
  exact (IH _ _ _ _ _ Hl P2 E).
Qed.

(** [identifyNsUrl] recognises nothing: the characters it compares with carry
    their length in the upper bits. *)
Lemma identify_none s b r : plain s -> At cf (s_last s) (b :: r) -> b <> x26 -> r <> [] -> identifyNsUrl cf s = ROk NsDefault s.
Proof.
  intros P H Hb Hr. unfold identifyNsUrl. rewrite bind_get. cbv beta zeta. destruct ((s_len1 s <? 29) || _) eqn:El; [reflexivity|].
  apply orb_false_iff in El. destruct El as [El _]. apply Z.ltb_ge in El.
  destruct r as [|b2 r]; [congruence|]. pose proof H as H1. apply (At_cons cf) in H. destruct H as (Z0 & _ & H). apply (At_cons cf) in H. destruct H as (Z1 & _ & _).
  change (firstn 18 URL2) with (104 :: tl (firstn 18 URL2)). cbn [nsUrlLoop]. change (s_last s) with (s_last s). change (s_len1 s) with (s_len1 s).
  destruct (Z.ltb_spec (s_last s) (s_last s + s_len1 s)) as [_|]; [|lia].
  destruct (long_value (rdr cf s) (wrap32 (s_last s)) b) as (k & v & E & Hk & Hv & N).
  { pose proof (znth_range _ _ _ Z0). rewrite wrap32_id by lia. exact Z0. }
  { intros _. exists b2. pose proof (znth_range _ _ _ Z0). rewrite wrap32_id by lia. exact Z1. }
  assert (G : getCharResolved cf (s_last s) s = ROk (k * 2^32 + v) s).
  { unfold getCharResolved. rewrite bind_get. cbv beta. change (s_last s) with (s_last s). unfold lift. rewrite E. unfold bind at 1. cbv iota.
    specialize (N Hb). assert (wrap32 (k * 2^32 + v) = v) as -> by (unfold wrap32; lia). change CH_AMP with 38. destruct (Z.eqb_spec v 38); [congruence|]. reflexivity. }
  unfold bind. change (s_last s) with (s_last s) in *. rewrite G. destruct (Z.eqb_spec 104 (k * 2^32 + v)); [lia|]. reflexivity.
Qed.
Lemma identify_short s : s_len1 s < 29 -> identifyNsUrl cf s = ROk NsDefault s.
Proof. intros H. unfold identifyNsUrl. rewrite bind_get. cbv beta zeta. destruct (Z.ltb_spec (s_len1 s) 29); [reflexivity | lia]. Qed.
End Url.
