(** The start of a document: the XML declaration or what stands for it. *)
From Verif Require Import Lib XmlChar XmlCharProofs Buffer BufferProofs Reader ParserState ParserPrim ParserProc ParserMain
  SpecParse SpecChar SpecDoc ParserWp ParserInv ParserInvTag ParserInvMain TokenProofs SpecToken DocScan DocBase DocGap DocTag DocItem DocBody.

Section Start.
Variable cf : cfg.
Variable fin : nat -> M unit.
Notation doc := (c_doc cf).
Hypothesis HE : c_end cf = zlen doc.
Hypothesis HD : zlen doc < 2^31.
Hypothesis HN : c_ns cf = false.
Context {Nv : nsview}.
(* local notations *)
Local Notation At := (DocScan.At cf).
Local Notation At_cons := (DocScan.At_cons cf).
Local Notation At_app := (DocScan.At_app cf).
Local Notation nextChar_cons := (DocScan.nextChar_cons cf HE).
Local Notation nextChar_nil := (DocScan.nextChar_nil cf HE).
Local Notation skipChar_cons := (DocScan.skipChar_cons cf).
Local Notation skipChar_nil := (DocScan.skipChar_nil cf).
Local Notation parseErr_not := (DocScan.parseErr_not cf).
Local Notation wsLoop_inv := (DocScan.wsLoop_inv cf HE).
Local Notation nextWs_ok := (DocScan.nextWs_ok cf HE).
Local Notation At_app_cons := (DocScan.At_app_cons cf).
Local Notation skipSeq_ok := (DocScan.skipSeq_ok cf).
Local Notation skipSeq_no := (DocScan.skipSeq_no cf).
Local Notation skipSeq_inv := (DocScan.skipSeq_inv cf).
Local Notation Quiet := (DocBase.Quiet cf).
Local Notation write_ok := (DocBase.write_ok cf).
Local Notation loop := (DocBase.loop cf fin).
Local Notation loop_step := (DocBase.loop_step cf fin).
Local Notation goes_step := (DocBase.goes_step cf fin).
Local Notation leads_ret := (DocBase.leads_ret cf fin).
Local Notation reach := (DocBase.reach cf fin).
Local Notation goes_leads := (DocBase.goes_leads cf fin).
Local Notation reach_trans := (DocBase.reach_trans cf fin).
Local Notation andThen_inv := (DocBase.andThen_inv cf fin).
Local Notation Ready := (DocBase.Ready cf).
Local Notation quiet_vtd := (DocGap.quiet_vtd cf).
Local Notation either_ok := (DocItem.either_ok cf).
Local Notation either_nil := (DocItem.either_nil cf).
(* end *)

(** ** The first '<' *)
Lemma if_ok (c : bool) (s1 s2 : pst) : (if c then ROk true s1 else ROk false s2) = ROk c (if c then s1 else s2).
Proof. destruct c; reflexivity. Qed.
Definition cut_decl (l : list byte) : Prop :=
  match l with [] => True | [q] => q = x3f | [q; x] => q = x3f /\ one_of "xX" x | [q; x; m] => q = x3f /\ one_of "xX" x /\ one_of "mM" m | _ => False end.
Lemma xmlDecl_is s p l : Pos p s -> At p l ->
  (exists x m k r, l = x3f :: x :: m :: k :: r /\ xml_like [x; m; k] /\ skipXmlDecl cf s = ROk true (mv (p + 4) s)) \/
  (exists j b t, l = j ++ b :: t /\ (length j < 4)%nat /\ junk_then j b /\ skipXmlDecl cf s = ROk false (mv (p + zlen j) s)) \/
  ((exists w, skipXmlDecl cf s = RPanic w) /\ cut_decl l).
Proof.
  intros [Po Pr] H. unfold skipXmlDecl, andM.
  change 120 with (b2z x78). change 88 with (b2z x58). change 109 with (b2z x6d). change 77 with (b2z x4d). change 108 with (b2z x6c). change 76 with (b2z x4c).
  rewrite <- Pr in H. destruct l as [|q l].
  { right. right. split; [|exact I]. eexists. unfold bind at 1. rewrite (skipChar_nil _ _ H). reflexivity. }
  rewrite (bind_ok _ _ _ (CH_QM =? b2z q) (if CH_QM =? b2z q then mv (s_roff s + 1) s else mv (s_roff s) s)) by (rewrite (skipChar_cons _ _ _ _ H); destruct (CH_QM =? b2z q); reflexivity).
  change CH_QM with (b2z x3f). rewrite b2z_eqb. destruct (Byte.eqb x3f q) eqn:Eq.
  2: { right. left. exists [], q, l. split; [reflexivity|]. split; [cbn; lia|]. split; [intros ->; discriminate Eq|]. rewrite zl0, Z.add_0_r, <- Pr. reflexivity. }
  apply Byte.byte_dec_bl in Eq. subst q. apply At_cons in H. destruct H as (_ & _ & H). rewrite Pr in *. set (s1 := mv (p + 1) s).
  destruct l as [|x l]. { right. right. split; [|reflexivity]. eexists. unfold bind at 1. rewrite (either_nil _ _ s1 H). reflexivity. }
  rewrite (bind_ok _ _ _ _ _ (eq_trans (either_ok x78 x58 s1 x l H) (if_ok _ _ _))). change (s_roff s1) with (p + 1). destruct (Byte.eqb x78 x || Byte.eqb x58 x) eqn:Ex.
  2: { right. left. exists [x3f], x, l. split; [reflexivity|]. split; [cbn; lia|]. split; [|reflexivity]. split; [reflexivity|].
       intros X. apply (one_of2 x78 x58 x "xX" eq_refl) in X. congruence. }
  apply (one_of2 x78 x58 x "xX" eq_refl) in Ex. apply At_cons in H. destruct H as (_ & _ & H). set (s2 := mv (p + 1 + 1) s1).
  destruct l as [|m l]. { right. right. split; [|split; [reflexivity | exact Ex]]. eexists. unfold bind at 1. rewrite (either_nil _ _ s2 H). reflexivity. }
  rewrite (bind_ok _ _ _ _ _ (eq_trans (either_ok x6d x4d s2 m l H) (if_ok _ _ _))). change (s_roff s2) with (p + 1 + 1). destruct (Byte.eqb x6d m || Byte.eqb x4d m) eqn:Em.
  2: { right. left. exists [x3f; x], m, l. split; [reflexivity|]. split; [cbn; lia|]. split; [|change (zlen [x3f; x]) with 2; replace (p + 2) with (p + 1 + 1) by lia; reflexivity]. split; [reflexivity|]. split; [exact Ex|].
       intros X. apply (one_of2 x6d x4d m "mM" eq_refl) in X. congruence. }
  apply (one_of2 x6d x4d m "mM" eq_refl) in Em. apply At_cons in H. destruct H as (_ & _ & H). set (s3 := mv (p + 1 + 1 + 1) s2).
  destruct l as [|k l]. { right. right. split; [|split; [reflexivity | split; [exact Ex | exact Em]]]. eexists. rewrite (either_nil _ _ s3 H). reflexivity. }
  rewrite (either_ok x6c x4c s3 k l H). change (s_roff s3) with (p + 1 + 1 + 1). destruct (Byte.eqb x6c k || Byte.eqb x4c k) eqn:Ek.
  - apply (one_of2 x6c x4c k "lL" eq_refl) in Ek. left. exists x, m, k, l. split; [reflexivity|]. split; [split; [exact Ex|]; split; assumption|].
    replace (p + 4) with (p + 1 + 1 + 1 + 1) by lia. reflexivity.
  - right. left. exists [x3f; x; m], k, l. split; [reflexivity|]. split; [cbn; lia|]. split; [|change (zlen [x3f; x; m]) with 3; replace (p + 3) with (p + 1 + 1 + 1) by lia; reflexivity].
    split; [reflexivity|]. split; [exact Ex|]. split; [exact Em|]. intros X. apply (one_of2 x6c x4c k "lL" eq_refl) in X. congruence.
Qed.
Lemma oneSpace_cons s b l : At (s_roff s) (b :: l) ->
  skipOneSpace cf s = if space b then ROk true (mv (s_roff s + 1) s) else ROk false (mv (s_roff s) s).
Proof.
  intros H. unfold skipOneSpace, orM.
  assert (G : forall c B (k : bool -> M B) q, s_roff q = s_roff s -> bind (skipChar cf (b2z c)) k q = k (Byte.eqb c b) (if Byte.eqb c b then mv (s_roff s + 1) q else mv (s_roff s) q)).
  { intros c B k q Eq. unfold bind. rewrite <- Eq in H. rewrite (skipChar_cons q b l _ H), b2z_eqb, Eq. destruct (Byte.eqb c b); reflexivity. }
  change CH_SP with (b2z x20). change CH_TAB with (b2z x09). change CH_LF with (b2z x0a). change CH_CR with (b2z x0d).
  rewrite G by reflexivity. destruct (Byte.eqb x20 b) eqn:E1; [apply Byte.byte_dec_bl in E1; subst b; reflexivity|].
  rewrite G by reflexivity. destruct (Byte.eqb x09 b) eqn:E2; [apply Byte.byte_dec_bl in E2; subst b; reflexivity|].
  rewrite G by reflexivity. destruct (Byte.eqb x0a b) eqn:E3; [apply Byte.byte_dec_bl in E3; subst b; reflexivity|].
  rewrite (skipChar_cons (mv (s_roff s) (mv (s_roff s) (mv (s_roff s) s))) b l _ H), b2z_eqb.
  destruct (Byte.eqb x0d b) eqn:E4; [apply Byte.byte_dec_bl in E4; subst b; reflexivity|].
  destruct b; try reflexivity; discriminate.
Qed.
Lemma oneSpace_nil s : At (s_roff s) [] -> skipOneSpace cf s = RPanic PnSkipAtEnd.
Proof. intros H. unfold skipOneSpace, orM, bind at 1. rewrite (skipChar_nil _ _ H). reflexivity. Qed.


(** ** The declaration, step by step *)
Definition Dec (ts : list tok) (p : Z) (l : list byte) (c last : Z) (s : pst) : Prop :=
  Quiet [] ts s /\ s_mustUtf8 s = false /\ Pos p s /\ At p l /\ s_cur s = c /\ s_last s = last.
Definition gives {A} (F : M A) (s : pst) (P : A -> pst -> Prop) : Prop := exists a s1, F s = ROk a s1 /\ P a s1.
Lemma gives_bind {A B} (F : M A) (k : A -> M B) s a s1 P : F s = ROk a s1 -> gives (k a) s1 P -> gives (bind F k) s P.
Proof. intros E (b & s2 & E2 & HP). exists b, s2. split; [rewrite (bind_ok _ _ _ _ _ E); exact E2 | exact HP]. Qed.
Lemma gives_eq {A} (F G : M A) s s' P : F s = G s' -> gives G s' P -> gives F s P.
Proof. intros E (b & s2 & E2 & HP). exists b, s2. split; [congruence | exact HP]. Qed.
Lemma gives_ret {A} (a : A) s (P : A -> pst -> Prop) : P a s -> gives (ret a) s P.
Proof. intros H. exists a, s. split; [reflexivity | exact H]. Qed.
Lemma gives_mono {A} (F : M A) s (P Q : A -> pst -> Prop) : gives F s P -> (forall a s1, P a s1 -> Q a s1) -> gives F s Q.
Proof. intros (a & s1 & E & H) G. exists a, s1. auto. Qed.
Lemma gives_seq {A B} (F : M A) (k : A -> M B) s P Q : gives F s P -> (forall a s1, P a s1 -> gives (k a) s1 Q) -> gives (bind F k) s Q.
Proof. intros (a & s1 & E & H) G. apply (gives_bind _ _ _ _ _ _ E), G, H. Qed.

Lemma o_ws ts p w b r c la s : Dec ts p (w ++ b :: r) c la s -> blank w = true -> space b = false ->
  gives (nextCharAfterWs cf) s (fun _ => Dec ts (p + zlen w + 1) r (b2z b) la).
Proof.
  intros (Q & M & [Po Pr] & H & _ & HL) Hw Hb. pose proof Q as ((B1 & _) & _). pose proof (At_app_cons _ _ _ _ H) as H1. rewrite <- Pr in H.
  eexists _, _. split; [apply (nextWs_ok s w b r B1 H Hw Hb)|]. rewrite Pr. split; [exact Q|]. split; [exact M|]. split; [split; reflexivity|]. split; [exact H1|]. split; [reflexivity | exact HL].
Qed.
Lemma i_ws ts p l c la s s1 : Dec ts p l c la s -> nextCharAfterWs cf s = ROk tt s1 ->
  exists w b r, l = w ++ b :: r /\ blank w = true /\ space b = false /\ Dec ts (p + zlen w + 1) r (b2z b) la s1.
Proof.
  intros HDc K. pose proof HDc as (Q & M & [Po Pr] & H & _ & HL). pose proof Q as ((B1 & _) & _). rewrite <- Pr in H.
  pose proof K as K'. unfold nextCharAfterWs in K'. apply (wsLoop_inv _ _ _ _ B1 H) in K'. destruct K' as (w & b & r & -> & Hw & Hb).
  destruct (o_ws ts p w b r c la s HDc Hw Hb) as (u & s2 & E & D2). rewrite E in K. injection K as _ <-. exists w, b, r. auto.
Qed.
Lemma o_next ts p b r c la s : Dec ts p (b :: r) c la s -> gives (nextChar cf) s (fun _ => Dec ts (p + 1) r (b2z b) la).
Proof.
  intros (Q & M & [Po Pr] & H & _ & HL). pose proof Q as ((B1 & _) & _). pose proof (At_cons _ _ _ H) as (_ & _ & H1). rewrite <- Pr in H.
  eexists _, _. split; [apply (nextChar_cons s b r B1 H)|]. rewrite Pr. split; [exact Q|]. split; [exact M|]. split; [split; reflexivity|]. split; [exact H1|]. split; [reflexivity | exact HL].
Qed.
Lemma i_next ts p l c la s s1 : Dec ts p l c la s -> nextChar cf s = ROk tt s1 -> exists b r, l = b :: r /\ Dec ts (p + 1) r (b2z b) la s1.
Proof.
  intros HDc K. pose proof HDc as (Q & M & [Po Pr] & H & _ & HL). destruct l as [|b r]; [rewrite nextChar_nil in K by (rewrite Pr; exact H); discriminate|].
  destruct (o_next ts p b r c la s HDc) as (u & s2 & E & D2). rewrite E in K. injection K as _ <-. exists b, r. auto.
Qed.
Lemma dec_mv ts p l c la s q l' : Dec ts p l c la s -> At q l' -> Dec ts q l' c la (mv q s).
Proof.
  intros (Q & M & _ & H & Hc & HL) H'. split; [exact Q|]. split; [exact M|]. split; [split; reflexivity|]. split; [exact H'|]. split; [exact Hc | exact HL].
Qed.
Lemma o_seq ts p x r c la s : Dec ts p (lit x ++ r) c la s -> gives (skipCharSeq cf (codes x)) s (fun b s1 => b = true /\ Dec ts (p + zlen (lit x)) r c la s1).
Proof.
  intros HDc. pose proof HDc as (Q & M & [Po Pr] & H & _). pose proof (At_app _ _ _ H) as H1. rewrite <- Pr in H. rewrite codes_lit.
  eexists _, _. split; [apply (skipSeq_ok _ _ _ H)|]. split; [reflexivity|]. rewrite Pr. apply (dec_mv _ _ _ _ _ _ _ _ HDc H1).
Qed.
Lemma i_seq ts p l x c la s b s1 : Dec ts p l c la s -> skipCharSeq cf (codes x) s = ROk b s1 ->
  (b = true /\ exists r, l = lit x ++ r /\ Dec ts (p + zlen (lit x)) r c la s1) \/
  (b = false /\ exists t y z d r, lit x = t ++ y :: z /\ l = t ++ d :: r /\ y <> d /\ Dec ts (p + zlen t) (d :: r) c la s1).
Proof.
  intros HDc K. pose proof HDc as (Q & M & [Po Pr] & H & _). rewrite codes_lit in K. rewrite <- Pr in H.
  destruct (skipSeq_inv _ _ _ _ _ H K) as [(-> & r & -> & H1 & ->)|(-> & t & y & z & d & r & E & -> & N & H1 & ->)]; [left|right]; (split; [reflexivity|]).
  - exists r. split; [reflexivity|]. rewrite Pr in *. apply (dec_mv _ _ _ _ _ _ _ _ HDc H1).
  - exists t, y, z, d, r. split; [exact E|]. split; [reflexivity|]. split; [exact N|]. rewrite Pr in *. apply (dec_mv _ _ _ _ _ _ _ _ HDc H1).
Qed.
Lemma o_skip ts p b r c la s : Dec ts p (b :: r) c la s -> gives (skipChar cf (b2z b)) s (fun x s1 => x = true /\ Dec ts (p + 1) r c la s1).
Proof.
  intros HDc. pose proof HDc as (Q & M & [Po Pr] & H & _). pose proof (At_cons _ _ _ H) as (_ & _ & H1). rewrite <- Pr in H.
  eexists _, _. split; [rewrite (skipChar_cons _ _ _ _ H), Z.eqb_refl; reflexivity|]. split; [reflexivity|]. rewrite Pr. apply (dec_mv _ _ _ _ _ _ _ _ HDc H1).
Qed.
Lemma o_skip_no ts p b r k c la s : Dec ts p (b :: r) c la s -> k <> b2z b -> gives (skipChar cf k) s (fun x s1 => x = false /\ Dec ts p (b :: r) c la s1).
Proof.
  intros HDc N. pose proof HDc as (Q & M & [Po Pr] & H & _). pose proof H as H1. rewrite <- Pr in H.
  eexists _, _. split; [rewrite (skipChar_cons _ _ _ _ H); destruct (Z.eqb_spec k (b2z b)); [contradiction | reflexivity]|]. split; [reflexivity|]. rewrite Pr. apply (dec_mv _ _ _ _ _ _ _ _ HDc H1).
Qed.
Lemma i_skip ts p l k c la s x s1 : Dec ts p l c la s -> skipChar cf k s = ROk x s1 ->
  exists b r, l = b :: r /\ ((x = true /\ k = b2z b /\ Dec ts (p + 1) r c la s1) \/ (x = false /\ k <> b2z b /\ Dec ts p (b :: r) c la s1)).
Proof.
  intros HDc K. pose proof HDc as (Q & M & [Po Pr] & H & _). destruct l as [|b r]; [rewrite skipChar_nil in K by (rewrite Pr; exact H); discriminate|].
  exists b, r. split; [reflexivity|]. destruct (Z.eq_dec k (b2z b)) as [->|N].
  - left. destruct (o_skip ts p b r c la s HDc) as (y & s2 & E & -> & D2). rewrite E in K. injection K as <- <-. auto.
  - right. destruct (o_skip_no ts p b r k c la s HDc N) as (y & s2 & E & -> & D2). rewrite E in K. injection K as <- <-. auto.
Qed.
Lemma dec_bounds ts p l c la s : Dec ts p l c la s -> 0 <= p < 2^31.
Proof. intros (_ & _ & _ & H & _). destruct H as [H _]. lia. Qed.
Lemma o_write ts p l c la s ty o n : Dec ts p l c la s -> 0 < ty < 16 -> 0 <= n < 2^20 -> 0 <= o < 2^31 ->
  gives (writeVtd ty o n (s_depth s)) s (fun _ => Dec (ts ++ [Tok ty o n (-1)]) p l c la).
Proof.
  intros (Q & M & P & H & Hc & HL) Hty Hn Ho. pose proof Q as (B & Dp & _).
  destruct (write_ok ts s (Tok ty o n (-1)) B ltac:(unfold fits; cbn; lia) ltac:(cbn; lia)) as (b & E & B'). cbn [t_type t_off t_len t_depth] in E.
  eexists _, _. split; [rewrite Dp; exact E|]. pose proof (quiet_vtd [] [] ts _ s b Q B') as Q'.
  split; [exact Q'|]. split; [exact M|]. split; [exact P|]. split; [exact H|]. split; [exact Hc | exact HL].
Qed.
Lemma o_dec ts p l c la s ty n : Dec ts p l c la s -> 0 < ty < 16 -> 0 <= n < 2^20 -> 0 <= la < 2^31 ->
  gives (writeDec ty n) s (fun _ => Dec (ts ++ [Tok ty la n (-1)]) p l c la).
Proof.
  intros HDc Hty Hn Ho. pose proof HDc as (((_ & _ & B3 & _) & _) & _ & _ & _ & _ & HL). unfold writeDec.
  apply (gives_eq _ (writeVtd ty la n (s_depth s)) s s); [|apply (o_write ts p l c la s); assumption].
  rewrite bind_get. change (s_single s) with (s_single s). rewrite B3. rewrite <- HL. reflexivity.
Qed.
Lemma o_mark ts p l c la s : Dec ts p l c la s -> gives markLast s (fun _ => Dec ts p l c p).
Proof.
  intros (Q & M & P & H & Hc & HL). eexists _, _. split; [unfold markLast; rewrite bind_get; reflexivity|]. split; [exact Q|]. split; [exact M|]. split; [exact P|]. split; [exact H|].
  split; [exact Hc|]. destruct P as [<- _]. reflexivity.
Qed.
Definition backLast : M unit := s <- get (fun s => s) ;; modify (set_last (s_off s - s_inc s)).
Lemma o_back ts p l c la s : Dec ts p l c la s -> gives backLast s (fun _ => Dec ts p l c (p - 1)).
Proof.
  intros (Q & M & P & H & Hc & HL). pose proof Q as ((_ & B2 & _) & _). eexists _, _. split; [unfold backLast; rewrite bind_get; reflexivity|].
  split; [exact Q|]. split; [exact M|]. split; [exact P|]. split; [exact H|]. split; [exact Hc|].
  change (s_off s - s_inc s = p - 1). rewrite B2. destruct P as [<- _]. reflexivity.
Qed.
Lemma skip_mv k s b s1 : skipChar cf k s = ROk b s1 -> exists q, s1 = mv q s.
Proof. unfold skipChar. destruct (rdSkipChar (rdr cf s) k) as [r [x|e|w]]; try discriminate. intros E. injection E as _ <-. eexists. reflexivity. Qed.
Lemma skipSeq_mv k s b s1 : skipCharSeq cf k s = ROk b s1 -> exists q, s1 = mv q s.
Proof. unfold skipCharSeq. destruct (rdSkipCharSeq (rdr cf s) k) as [r [x|e|w]]; try discriminate. intros E. injection E as _ <-. eexists. reflexivity. Qed.
Lemma orM_mv a b s x s1 : (forall s x s1, a s = ROk x s1 -> exists q, s1 = mv q s) -> (forall s x s1, b s = ROk x s1 -> exists q, s1 = mv q s) ->
  orM a b s = ROk x s1 -> exists q, s1 = mv q s.
Proof.
  intros Ha Hb. unfold orM, bind. destruct (a s) as [[|] s2|?|?|] eqn:E; try discriminate.
  - intros X. injection X as _ <-. apply (Ha _ _ _ E).
  - intros X. destruct (Ha _ _ _ E) as (q & ->). destruct (Hb _ _ _ X) as (q2 & ->). exists q2. reflexivity.
Qed.
Lemma ignoreCase_mv k : forall s b s1, skipCharSeqIgnoreCase cf k s = ROk b s1 -> exists q, s1 = mv q s \/ s1 = s.
Proof.
  induction k as [|c k IH]; intros s b s1 K; cbn [skipCharSeqIgnoreCase] in K; [injection K as _ <-; exists 0; auto|].
  apply bind_inv in K. destruct K as (x & s2 & K1 & K). apply orM_mv in K1; [|apply skip_mv|apply skip_mv]. destruct K1 as (q & ->). destruct x.
  - destruct (IH _ _ _ K) as (q2 & [->| ->]); [exists q2; left; reflexivity | exists q; left; reflexivity].
  - injection K as _ <-. exists q. auto.
Qed.
Lemma either_mv k s b s1 : skipEitherCase cf k s = ROk b s1 -> exists q, s1 = mv q s.
Proof. apply orM_mv; apply skipSeq_mv. Qed.


(** ** The encoding *)
Lemma o_or ts p b r c la s x y : Dec ts p (b :: r) c la s -> b2z b = x \/ b2z b = y ->
  gives (orM (skipChar cf x) (skipChar cf y)) s (fun v s1 => v = true /\ Dec ts (p + 1) r c la s1).
Proof.
  intros HDc Hb. destruct (Z.eq_dec x (b2z b)) as [->|N].
  - eapply gives_seq; [eapply o_skip; exact HDc|]. intros v s1 (-> & D1). apply gives_ret. auto.
  - destruct Hb as [E|<-]; [congruence|]. eapply gives_seq; [eapply o_skip_no; [exact HDc | exact N]|]. intros v s1 (-> & D1). eapply o_skip. exact D1.
Qed.
Lemma i_or ts p l c la s x y v s1 : Dec ts p l c la s -> orM (skipChar cf x) (skipChar cf y) s = ROk v s1 ->
  exists b r, l = b :: r /\ ((v = true /\ (b2z b = x \/ b2z b = y) /\ Dec ts (p + 1) r c la s1) \/ (v = false /\ Dec ts p l c la s1)).
Proof.
  intros HDc K. unfold orM in K. apply bind_inv in K. destruct K as (v1 & s2 & K1 & K).
  destruct (i_skip _ _ _ _ _ _ _ _ _ HDc K1) as (b & r & -> & [(-> & -> & D1)|(-> & N & D1)]); exists b, r; (split; [reflexivity|]).
  - injection K as <- <-. left. auto.
  - destruct (i_skip _ _ _ _ _ _ _ _ _ D1 K) as (b' & r' & E & [(-> & -> & D2)|(-> & N2 & D2)]); injection E as <- <-; [left|right]; auto.
Qed.
Definition ci (c : Z) (b : byte) : Prop := b2z b = c \/ b2z b = toUpper c.
Lemma o_ignoreCase k t : Forall2 ci k t -> forall ts p r c la s, Dec ts p (t ++ r) c la s ->
  gives (skipCharSeqIgnoreCase cf k) s (fun v s1 => v = true /\ Dec ts (p + zlen t) r c la s1).
Proof.
  induction 1 as [|x b k t Hx _ IH]; intros ts p r c la s HDc; cbn [skipCharSeqIgnoreCase app] in *.
  - apply gives_ret. rewrite zl0, Z.add_0_r. auto.
  - eapply gives_seq; [eapply o_or; [exact HDc | exact Hx]|]. intros v s1 (-> & D1). eapply gives_mono; [eapply IH; exact D1|].
    intros v s2 (-> & D2). rewrite zlen_cons. replace (p + (zlen t + 1)) with (p + 1 + zlen t) by lia. auto.
Qed.
Lemma i_ignoreCase k : forall ts p l c la s s1, Dec ts p l c la s -> skipCharSeqIgnoreCase cf k s = ROk true s1 ->
  exists t r, Forall2 ci k t /\ l = t ++ r /\ Dec ts (p + zlen t) r c la s1.
Proof.
  induction k as [|x k IH]; intros ts p l c la s s1 HDc K; cbn [skipCharSeqIgnoreCase] in K.
  - injection K as <-. exists [], l. rewrite zl0, Z.add_0_r. split; [constructor|]. auto.
  - apply bind_inv in K. destruct K as (v & s2 & K1 & K). destruct (i_or _ _ _ _ _ _ _ _ _ _ HDc K1) as (b & r & -> & [(-> & Hb & D1)|(-> & _)]); [|discriminate K].
    destruct (IH _ _ _ _ _ _ _ D1 K) as (t & r2 & Ht & -> & D2). exists (b :: t), r2. split; [constructor; assumption|]. split; [reflexivity|].
    rewrite zlen_cons. replace (p + (zlen t + 1)) with (p + 1 + zlen t) by lia. exact D2.
Qed.
Lemma o_either l u h ut ts p v r c la s : upperCodes (codes l) = codes u -> lit u = h :: ut -> ~ In h (lit l) -> either_case l u v -> Dec ts p (v ++ r) c la s ->
  gives (skipEitherCase cf (codes l)) s (fun b s1 => b = true /\ Dec ts (p + zlen v) r c la s1).
Proof.
  intros Eu Hu N Hv HDc. unfold skipEitherCase, orM. rewrite Eu. destruct Hv as [->|(k & Hk & ->)].
  - eapply gives_seq; [eapply o_seq; exact HDc|]. intros b s1 (-> & D1). apply gives_ret. auto.
  - rewrite <- app_assoc in HDc. pose proof HDc as (Q & M & [Po Pr] & H & _).
    assert (E : exists y z, lit l = firstn k (lit l) ++ y :: z).
    { destruct (skipn k (lit l)) as [|y z] eqn:Es; [apply (f_equal (@length _)) in Es; rewrite skipn_length in Es; cbn in Es; lia|]. exists y, z. rewrite <- Es. symmetry. apply firstn_skipn. }
    destruct E as (y & z & E). pose proof (At_app _ _ _ H) as H1. rewrite <- Pr in H. rewrite Hu in H. cbn [app] in H.
    eapply gives_bind; [rewrite codes_lit; apply (skipSeq_no (firstn k (lit l)) (lit l) s h (ut ++ r) y z H E)|].
    { intros ->. apply N. rewrite E. apply in_or_app. right. left. reflexivity. }
    cbv iota. rewrite Pr. eapply gives_mono; [eapply o_seq; apply (dec_mv _ _ _ _ _ _ _ _ HDc H1)|]. intros b s1 (-> & D1). split; [reflexivity|].
    rewrite zlen_app, Z.add_assoc. exact D1.
Qed.
Lemma i_either l u ts p x c la s s1 : upperCodes (codes l) = codes u -> Dec ts p x c la s -> skipEitherCase cf (codes l) s = ROk true s1 ->
  exists v r, x = v ++ r /\ either_case l u v /\ Dec ts (p + zlen v) r c la s1.
Proof.
  intros Eu HDc K. unfold skipEitherCase, orM in K. rewrite Eu in K. apply bind_inv in K. destruct K as (b & s2 & K1 & K).
  destruct (i_seq _ _ _ _ _ _ _ _ _ HDc K1) as [(-> & r & -> & D1)|(-> & t & y & z & d & r & E & -> & N & D1)].
  - injection K as <-. exists (lit l), r. split; [reflexivity|]. split; [left; reflexivity | exact D1].
  - destruct (i_seq _ _ _ _ _ _ _ _ _ D1 K) as [(_ & r2 & E2 & D2)|(X & _)]; [|discriminate X]. exists (t ++ lit u), r2. rewrite E2, <- app_assoc. split; [reflexivity|]. split.
    + right. exists (length t). rewrite E, app_length, firstn_app, firstn_all, Nat.sub_diag, app_nil_r. cbn [length]. split; [lia | reflexivity].
    + rewrite zlen_app, Z.add_assoc. exact D2.
Qed.

Definition encval (c : Z) : M unit :=
  if (c =? 97) || (c =? 65) then checkAsciiEncoding cf
  else if (c =? 99) || (c =? 67) then checkCpEncoding cf
  else if (c =? 105) || (c =? 73) then checkIsoEncoding cf
  else if (c =? 117) || (c =? 85) then us <- skipChar cf 115 ;; if us then checkUsAsciiEncoding cf else checkUtfEncoding cf
  else if (c =? 119) || (c =? 87) then checkWindowsEncoding cf
  else parseErr cf "invalid document encoding".
Definition enclen (a : byte) : Z := match a with x75 | x55 => 5 | x63 | x43 => 6 | _ => 12 end.
Lemma o_win l u h ut n msg ts p v r c la s : upperCodes (codes l) = codes u -> lit u = h :: ut -> ~ In h (lit l) -> either_case l u v -> Dec ts p (v ++ r) c la s ->
  0 <= n < 2^20 -> 0 <= la < 2^31 ->
  gives (checkWinEncoding cf (codes l) n msg) s (fun _ => Dec (ts ++ [Tok 10 la n (-1)]) (p + zlen v) r c la).
Proof.
  intros Eu Hu N Hv HDc Hn Hl. eapply gives_seq; [eapply (o_either l u); eassumption|]. intros b s1 (-> & D1). cbn [negb].
  pose proof D1 as (((_ & _ & _ & B4 & _) & _) & M & _ & _ & _ & HL). eapply gives_eq; [rewrite bind_get; reflexivity|]. rewrite M.
  change (s_enc s1) with (s_enc s1). rewrite B4. change (FormatUtf16LE <? 0) with false. cbn [orb].
  eapply gives_eq; [|eapply (o_write _ _ _ _ _ s1 10 la n D1); lia]. rewrite <- HL. reflexivity.
Qed.
Lemma i_win l u n msg ts p x c la s s1 : upperCodes (codes l) = codes u -> Dec ts p x c la s -> checkWinEncoding cf (codes l) n msg s = ROk tt s1 ->
  exists v r, x = v ++ r /\ either_case l u v.
Proof.
  intros Eu HDc K. unfold checkWinEncoding in K. apply bind_inv in K. destruct K as (b & s2 & K1 & K). destruct b; cbn [negb] in K; [|exfalso; revert K; apply parseErr_not].
  destruct (i_either l u _ _ _ _ _ _ _ Eu HDc K1) as (v & r & -> & Hv & _). eauto.
Qed.
Lemma one_of_z a b c s x y : lit s = [a; b] -> b2z a = x -> b2z b = y -> one_of s c -> (b2z c =? x) || (b2z c =? y) = true.
Proof.
  intros E <- <-. rewrite !b2z_eqb. apply (one_of2' a b c s E).
Qed.
Lemma encval_ok ts p a v r la s : Dec ts p (v ++ r) (b2z a) la s -> wf_encvalue (a :: v) -> 0 <= la < 2^31 ->
  gives (encval (b2z a)) s (fun _ => Dec (ts ++ [Tok 10 la (enclen a) (-1)]) (p + zlen v) r (b2z a) la).
Proof.
  intros HDc Hv Hl. unfold encval. destruct Hv as [(a' & b & c & E & Ha & Hb & Hc)|[(a' & t & E & Ha & Ht)|(a' & t & E & Ha & Ht)]].
  - injection E as <- ->. assert (enclen a = 5 /\ (b2z a =? 97) || (b2z a =? 65) = false /\ (b2z a =? 99) || (b2z a =? 67) = false /\ (b2z a =? 105) || (b2z a =? 73) = false /\ (b2z a =? 117) || (b2z a =? 85) = true) as (-> & -> & -> & -> & ->)
      by (destruct Ha as [<-|[<-|[]]]; repeat split).
    cbn [app] in HDc. eapply gives_seq; [eapply o_skip_no; [exact HDc|]; destruct Hb as [<-|[<-|[]]]; discriminate|]. intros x s1 (-> & D1).
    unfold checkUtfEncoding. eapply gives_seq; [eapply (o_ignoreCase (codes "tf-") [b; c; x2d])|].
    + constructor; [destruct Hb as [<-|[<-|[]]]; [left|right]; reflexivity|]. constructor; [destruct Hc as [<-|[<-|[]]]; [left|right]; reflexivity|]. constructor; [left; reflexivity | constructor].
    + exact D1.
    + intros x s2 (-> & D2). cbn [negb]. change 56 with (b2z x38). eapply gives_seq; [eapply o_skip; exact D2|]. intros x s3 (-> & D3).
      pose proof D3 as (((_ & _ & B3 & _) & _) & _ & _ & _ & _ & HL). eapply gives_eq; [rewrite bind_get; reflexivity|]. change (s_single s3) with (s_single s3). rewrite B3. cbn [negb].
      eapply gives_mono; [eapply gives_eq; [|eapply (o_write _ _ _ _ _ s3 10 la 5 D3); lia]; rewrite <- HL; reflexivity|].
      intros [] s4 D4. change (zlen [b; c; x2d]) with 3 in D4. change (zlen (b :: c :: lit "-8")) with 4. replace (p + 4) with (p + 3 + 1) by lia. exact D4.
  - injection E as <- ->. assert (enclen a = 6 /\ (b2z a =? 97) || (b2z a =? 65) = false /\ (b2z a =? 99) || (b2z a =? 67) = true) as (-> & -> & ->)
      by (destruct Ha as [<-|[<-|[]]]; repeat split).
    eapply (o_win "p125" "P125"); try eassumption; try lia; try reflexivity. cbn. intros H. repeat (destruct H as [H|H]; [discriminate H|]). exact H.
  - injection E as <- ->. assert (enclen a = 12 /\ (b2z a =? 97) || (b2z a =? 65) = false /\ (b2z a =? 99) || (b2z a =? 67) = false /\ (b2z a =? 105) || (b2z a =? 73) = false /\ (b2z a =? 117) || (b2z a =? 85) = false /\ (b2z a =? 119) || (b2z a =? 87) = true) as (-> & -> & -> & -> & -> & ->)
      by (destruct Ha as [<-|[<-|[]]]; repeat split).
    eapply (o_win "indows-125" "INDOWS-125"); try eassumption; try lia; try reflexivity. cbn. intros H. repeat (destruct H as [H|H]; [discriminate H|]). exact H.
Qed.
Lemma one_of_z' a b c s x y : lit s = [a; b] -> b2z a = x -> b2z b = y -> (b2z c =? x) || (b2z c =? y) = true -> one_of s c.
Proof. intros E <- <-. rewrite !b2z_eqb. apply (one_of2' a b c s E). Qed.
Lemma noSwitch {A} (k : bool -> M A) q s : s_enc s = 0 -> bind (cannotSwitch) k (mv q s) = k true (mv q s).
Proof. intros E. unfold cannotSwitch. rewrite bind_assoc, bind_get. change (s_enc (mv q s)) with (s_enc s). rewrite E. reflexivity. Qed.
Lemma encval_inv ts p a l la s s1 : Dec ts p l (b2z a) la s -> encval (b2z a) s = ROk tt s1 -> exists v r, l = v ++ r /\ wf_encvalue (a :: v).
Proof.
  intros HDc K. pose proof HDc as (((_ & _ & B3 & B4 & _) & _) & _). unfold encval in K.
  destruct ((b2z a =? 97) || (b2z a =? 65)) eqn:E1.
  { exfalso. unfold checkAsciiEncoding in K. apply bind_inv in K. destruct K as (b & s2 & K1 & K). apply either_mv in K1. destruct K1 as (q & ->).
    destruct b; cbn [negb] in K; [|revert K; apply parseErr_not]. rewrite noSwitch in K by exact B4. revert K. apply parseErr_not. }
  destruct ((b2z a =? 99) || (b2z a =? 67)) eqn:E2.
  { destruct (i_win "p125" "P125" _ _ _ _ _ _ _ _ _ eq_refl HDc K) as (v & r & -> & Hv). exists v, r. split; [reflexivity|].
    right. left. exists a, v. split; [reflexivity|]. split; [|exact Hv]. apply (one_of_z' x63 x43 a "cC" 99 67); try reflexivity. exact E2. }
  destruct ((b2z a =? 105) || (b2z a =? 73)) eqn:E3.
  { exfalso. unfold checkIsoEncoding in K. apply bind_inv in K. destruct K as (b & s2 & K1 & K). apply either_mv in K1. destruct K1 as (q & ->).
    destruct b; cbn [negb] in K; [|revert K; apply parseErr_not]. rewrite noSwitch in K by exact B4. revert K. apply parseErr_not. }
  destruct ((b2z a =? 117) || (b2z a =? 85)) eqn:E4.
  { apply bind_inv in K. destruct K as (us & s2 & K1 & K). destruct (i_skip _ _ _ _ _ _ _ _ _ HDc K1) as (b & r & -> & [(-> & _ & D1)|(-> & N & D1)]).
    { exfalso. apply skip_mv in K1. destruct K1 as (q0 & ->). unfold checkUsAsciiEncoding in K. apply bind_inv in K. destruct K as (b' & s3 & K1 & K). apply either_mv in K1. destruct K1 as (q & ->).
      destruct b'; cbn [negb] in K; [|revert K; apply parseErr_not]. rewrite (noSwitch _ q) in K by exact B4. revert K. apply parseErr_not. }
    unfold checkUtfEncoding in K. apply bind_inv in K. destruct K as (x & s3 & K2 & K). destruct x; cbn [negb] in K; [|exfalso; revert K; apply parseErr_not].
    destruct (i_ignoreCase _ _ _ _ _ _ _ _ D1 K2) as (t & r2 & Ht & E & D2). apply bind_inv in K. destruct K as (e8 & s4 & K3 & K).
    destruct (i_skip _ _ _ _ _ _ _ _ _ D2 K3) as (b8 & r3 & -> & [(-> & E8 & D3)|(-> & _ & D3)]).
    - change 56 with (b2z x38) in E8. apply b2z_inj in E8. subst b8. change (codes "tf-") with [116; 102; 45] in Ht.
      inversion Ht as [|? b1 ? t1 H1 Ht1]; subst. inversion Ht1 as [|? b2 ? t2 H2 Ht2]; subst. inversion Ht2 as [|? b3 ? t3 H3 Ht3]; subst. inversion Ht3; subst.
      exists ([b1; b2; b3] ++ [x38]), r3. split; [rewrite E, <- app_assoc; reflexivity|]. left. exists a, b1, b2.
      assert (b3 = x2d) as -> by (destruct H3 as [H3|H3]; apply b2z_inj; exact H3). split; [reflexivity|].
      split; [apply (one_of_z' x75 x55 a "uU" 117 85); try reflexivity; exact E4|].
      split; [destruct H1 as [H1|H1]; [left|right; left]; apply b2z_inj; symmetry; exact H1 | destruct H2 as [H2|H2]; [left|right; left]; apply b2z_inj; symmetry; exact H2].
    - exfalso. pose proof D3 as (((_ & _ & S3 & S4 & _) & _) & _). apply bind_inv in K. destruct K as (x & s5 & K4 & K).
      destruct x; cbn [negb] in K; [|revert K; apply parseErr_not].
      assert (F : forall k s b s', skipCharSeqIgnoreCase cf k s = ROk b s' -> s_single s = true -> s_enc s = 0 -> s_single s' = true /\ s_enc s' = 0).
      { intros k q bb q' X Y Z. destruct (ignoreCase_mv _ _ _ _ X) as (o & [->| ->]); auto. }
      destruct (F _ _ _ _ K4 S3 S4) as [S3' S4']. apply bind_inv in K. destruct K as (le & s6 & K5 & K). destruct (F _ _ _ _ K5 S3' S4') as [S3'' S4''].
      destruct le.
      + rewrite bind_get in K. change (s_enc s6) with (s_enc s6) in K. rewrite S4'' in K. revert K. apply parseErr_not.
      + apply bind_inv in K. destruct K as (be & s7 & K6 & K). destruct (F _ _ _ _ K6 S3'' S4'') as [S3a S4a]. rewrite bind_get in K. change (s_enc s7) with (s_enc s7) in K. rewrite S4a in K.
        change (s_single s7) with (s_single s7) in K. rewrite S3a in K. destruct be; revert K; apply parseErr_not. }
  destruct ((b2z a =? 119) || (b2z a =? 87)) eqn:E5; [|exfalso; revert K; apply parseErr_not].
  destruct (i_win "indows-125" "INDOWS-125" _ _ _ _ _ _ _ _ _ eq_refl HDc K) as (v & r & -> & Hv). exists v, r. split; [reflexivity|].
  right. right. exists a, v. split; [reflexivity|]. split; [|exact Hv]. apply (one_of_z' x77 x57 a "wW" 119 87); try reflexivity. exact E5.
Qed.

Lemma quote_z b : notQuote (b2z b) = false <-> quote b.
Proof.
  unfold notQuote, quote. change CH_SQ with (b2z x27). change CH_DQ with (b2z x22). rewrite !b2z_eqb, andb_false_iff, !negb_false_iff. split.
  - intros [H|H]; apply Byte.byte_dec_bl in H; auto.
  - intros [->| ->]; [right|left]; reflexivity.
Qed.
Lemma get_dec {B} (k : Z -> M B) ts p l c la s P : Dec ts p l c la s -> gives (k c) s P -> gives (bind (get s_cur) k) s P.
Proof. intros (_ & _ & _ & _ & <- & _) H. exact H. Qed.
Lemma get_dec_inv {B} (k : Z -> M B) ts p l c la s b s' : Dec ts p l c la s -> bind (get s_cur) k s = ROk b s' -> k c s = ROk b s'.
Proof. intros (_ & _ & _ & _ & <- & _) H. exact H. Qed.
Lemma enc_ok ts p e b r c la s : Dec ts p (e_eq1 e ++ [x3d] ++ e_eq2 e ++ [e_q1 e] ++ e_value e ++ [e_q2 e] ++ e_tail e ++ b :: r) c la s ->
  wf_encoding e -> space b = false -> 0 <= la < 2^31 ->
  gives (processDecEncodingAttr cf) s (fun _ =>
    Dec (ts ++ [Tok 9 la 8 (-1); Tok 10 (p + zlen (e_eq1 e) + 1 + zlen (e_eq2 e) + 1) (match e_value e with x75 :: _ | x55 :: _ => 5 | x63 :: _ | x43 :: _ => 6 | _ => 12 end) (-1)])
      (p + zlen (e_eq1 e) + 1 + zlen (e_eq2 e) + 1 + zlen (e_value e) + 1 + zlen (e_tail e) + 1) r (b2z b)
      (p + zlen (e_eq1 e) + 1 + zlen (e_eq2 e) + 1 + zlen (e_value e) + 1 + zlen (e_tail e))).
Proof.
  intros HDc (H1 & H2 & Hq1 & Hv & Hq2 & Ht) Hb Hl. destruct e as [w1 w2 q1 v q2 t]. cbn [e_eq1 e_eq2 e_q1 e_value e_q2 e_tail] in *. cbn [app] in HDc.
  unfold processDecEncodingAttr. eapply gives_seq; [eapply o_ws; [exact HDc | exact H1 | reflexivity]|]. intros [] s1 D1.
  eapply get_dec; [exact D1|]. change (b2z x3d =? CH_EQ) with true. cbn [negb].
  eapply gives_seq; [eapply (o_dec _ _ _ _ _ _ 9 8 D1); lia|]. intros [] s2 D2.
  assert (Q1 : space q1 = false) by (destruct Hq1 as [->| ->]; reflexivity). assert (Q2 : space q2 = false) by (destruct Hq2 as [->| ->]; reflexivity).
  eapply gives_seq; [eapply o_ws; [exact D2 | exact H2 | exact Q1]|]. intros [] s3 D3.
  eapply get_dec; [exact D3|]. rewrite (proj2 (quote_z q1) Hq1). eapply gives_seq; [eapply o_mark; exact D3|]. intros [] s4 D4.
  destruct v as [|a v]. { exfalso. destruct Hv as [(x & y & z & E & _)|[(x & y & E & _)|(x & y & E & _)]]; discriminate E. }
  cbn [app] in D4. eapply gives_seq; [eapply o_next; exact D4|]. intros [] s5 D5. eapply get_dec; [exact D5|]. fold (encval (b2z a)).
  eapply gives_seq; [eapply encval_ok; [exact D5 | exact Hv | apply (dec_bounds _ _ _ _ _ _ D4)]|]. intros [] s6 D6.
  eapply gives_seq; [eapply o_next; exact D6|]. intros [] s7 D7. eapply get_dec; [exact D7|]. rewrite (proj2 (quote_z q2) Hq2).
  eapply gives_seq; [eapply o_ws; [exact D7 | exact Ht | exact Hb]|]. intros [] s8 D8. fold backLast. eapply gives_mono; [eapply o_back; exact D8|].
  intros [] s9 D9. rewrite <- app_assoc in D9. cbn [app] in D9. rewrite zlen_cons.
  replace (match a with x75 | x55 => 5 | x63 | x43 => 6 | _ => 12 end) with (enclen a) by reflexivity.
  match type of D9 with Dec _ ?x _ _ ?y _ => match goal with |- Dec _ ?x' _ _ ?y' _ => replace x' with x by lia; replace y' with y by lia end end. exact D9.
Qed.
Lemma enc_inv ts p l c la s s1 : Dec ts p l c la s -> 0 <= la < 2^31 -> processDecEncodingAttr cf s = ROk tt s1 ->
  exists e b r, l = e_eq1 e ++ [x3d] ++ e_eq2 e ++ [e_q1 e] ++ e_value e ++ [e_q2 e] ++ e_tail e ++ b :: r /\ wf_encoding e /\ space b = false.
Proof.
  intros HDc Hl K. unfold processDecEncodingAttr in K. apply bind_inv in K. destruct K as ([] & s2 & K1 & K).
  destruct (i_ws _ _ _ _ _ _ _ HDc K1) as (w1 & b1 & r1 & -> & H1 & _ & D1). apply (get_dec_inv _ _ _ _ _ _ _ _ _ D1) in K; cbv beta in K.
  change CH_EQ with 61 in K. destruct (b2z b1 =? 61) eqn:E1; cbn [negb] in K; [|exfalso; revert K; apply parseErr_not]. bytes.
  apply bind_inv in K. destruct K as ([] & s3 & K1' & K). destruct (o_dec _ _ _ _ _ _ 9 8 D1 ltac:(lia) ltac:(lia) Hl) as ([] & s3' & E3 & D3).
  change TokDecAttrName with 9 in K1'. rewrite E3 in K1'. injection K1' as <-.
  apply bind_inv in K. destruct K as ([] & s4 & K2 & K). destruct (i_ws _ _ _ _ _ _ _ D3 K2) as (w2 & q1 & r2 & -> & H2 & _ & D4). apply (get_dec_inv _ _ _ _ _ _ _ _ _ D4) in K; cbv beta in K.
  destruct (notQuote (b2z q1)) eqn:Eq1; [exfalso; revert K; apply parseErr_not|]. apply quote_z in Eq1.
  apply bind_inv in K. destruct K as ([] & s5 & K3 & K). destruct (o_mark _ _ _ _ _ _ D4) as ([] & s5' & E5 & D5). rewrite E5 in K3. injection K3 as <-.
  apply bind_inv in K. destruct K as ([] & s6 & K4 & K). destruct (i_next _ _ _ _ _ _ _ D5 K4) as (a & r3 & -> & D6). apply (get_dec_inv _ _ _ _ _ _ _ _ _ D6) in K; cbv beta in K. fold (encval (b2z a)) in K.
  apply bind_inv in K. destruct K as ([] & s7 & K5 & K). destruct (encval_inv _ _ _ _ _ _ _ D6 K5) as (v & r4 & -> & Hv).
  destruct (encval_ok _ _ _ _ _ _ _ D6 Hv) as ([] & s7' & E7 & D7); [apply (dec_bounds _ _ _ _ _ _ D5)|]. rewrite E7 in K5. injection K5 as <-.
  apply bind_inv in K. destruct K as ([] & s8 & K6 & K). destruct (i_next _ _ _ _ _ _ _ D7 K6) as (q2 & r5 & -> & D8). apply (get_dec_inv _ _ _ _ _ _ _ _ _ D8) in K; cbv beta in K.
  destruct (notQuote (b2z q2)) eqn:Eq2; [exfalso; revert K; apply parseErr_not|]. apply quote_z in Eq2.
  apply bind_inv in K. destruct K as ([] & s9 & K7 & K). destruct (i_ws _ _ _ _ _ _ _ D8 K7) as (t & b & r6 & -> & Ht & Hb & D9).
  exists (Enc w1 w2 q1 (a :: v) q2 t), b, r6. split; [reflexivity|]. split; [|exact Hb]. repeat (split; [assumption|]). assumption.
Qed.

(** ** standalone *)
Lemma gives_assoc {A B C} (m : M A) (k : A -> M B) (h : B -> M C) s P Q : gives (bind m k) s P -> (forall b s1, P b s1 -> gives (h b) s1 Q) ->
  gives (bind m (fun a => bind (k a) h)) s Q.
Proof.
  intros (b & s1 & E & H) G. apply bind_inv in E. destruct E as (a & s2 & E1 & E2). destruct (G b s1 H) as (c & s3 & E3 & H3). exists c, s3. split; [|exact H3].
  rewrite (bind_ok _ _ _ _ _ E1), (bind_ok _ _ _ _ _ E2). exact E3.
Qed.
Lemma sta_ok ts p e b r c la s : Dec ts p (s_eq1 e ++ [x3d] ++ s_eq2 e ++ [s_q1 e] ++ sta_value e ++ [s_q2 e] ++ s_tail e ++ b :: r) c la s ->
  wf_standalone e -> space b = false -> 0 <= la < 2^31 ->
  gives (processDecStandaloneAttr cf) s (fun _ =>
    Dec (ts ++ [Tok 9 la 10 (-1); Tok 10 (p + zlen (s_eq1 e) + 1 + zlen (s_eq2 e) + 1) (if s_yes e then 3 else 2) (-1)])
      (p + zlen (s_eq1 e) + 1 + zlen (s_eq2 e) + 1 + zlen (sta_value e) + 1 + zlen (s_tail e) + 1) r (b2z b) (p + zlen (s_eq1 e) + 1 + zlen (s_eq2 e) + 1)).
Proof.
  intros HDc (H1 & H2 & Hq1 & Hj & Hq2 & Ht) Hb Hl. destruct e as [w1 w2 q1 j y q2 t]. unfold sta_value in *. cbn [s_eq1 s_eq2 s_q1 s_junk s_yes s_q2 s_tail] in *. cbn [app] in HDc.
  unfold processDecStandaloneAttr. eapply gives_seq; [eapply o_ws; [exact HDc | exact H1 | reflexivity]|]. intros [] s1 D1.
  eapply get_dec; [exact D1|]. change (b2z x3d =? CH_EQ) with true. cbn [negb].
  eapply gives_seq; [eapply (o_dec _ _ _ _ _ _ 9 10 D1); lia|]. intros [] s2 D2.
  assert (Q1 : space q1 = false) by (destruct Hq1 as [->| ->]; reflexivity). assert (Q2 : space q2 = false) by (destruct Hq2 as [->| ->]; reflexivity).
  eapply gives_seq; [eapply o_ws; [exact D2 | exact H2 | exact Q1]|]. intros [] s3 D3. eapply gives_seq; [eapply o_mark; exact D3|]. intros [] s4 D4.
  eapply get_dec; [exact D4|]. rewrite (proj2 (quote_z q1) Hq1). pose proof (dec_bounds _ _ _ _ _ _ D4) as L4.
  assert (G : gives (y0 <- skipCharSeq cf (codes "yes") ;; (if y0 then writeDec TokDecAttrVal 3 else n <- skipCharSeq cf (codes "no") ;; if n then writeDec TokDecAttrVal 2
      else parseErr cf "invalid value for attribute standalone (valid options are yes or no)")) s4
    (fun _ => Dec ((ts ++ [Tok 9 la 10 (-1)]) ++ [Tok 10 (p + zlen w1 + 1 + zlen w2 + 1) (if y then 3 else 2) (-1)]) (p + zlen w1 + 1 + zlen w2 + 1 + zlen (j ++ (if y then lit "yes" else lit "no")))
       (q2 :: t ++ b :: r) (b2z q1) (p + zlen w1 + 1 + zlen w2 + 1))).
  { destruct y.
    - destruct Hj as [->|(X & _)]; [|discriminate X]. cbn [app]. eapply gives_seq; [eapply o_seq; exact D4|]. intros x s5 (-> & D5). eapply (o_dec _ _ _ _ _ _ 10 3 D5); lia.
    - assert (Hx : exists y z, lit "yes" = j ++ y :: z /\ y <> x6e).
      { destruct Hj as [->|(_ & [->| ->])]; [exists x79, (lit "es") | exists x65, (lit "s") | exists x73, []]; split; try reflexivity; discriminate. }
      destruct Hx as (y & z & E & N). rewrite <- app_assoc in D4. pose proof D4 as (_ & _ & [Po Pr] & H & _). pose proof (At_app _ _ _ H) as H'. rewrite <- Pr in H.
      change (lit "no" ++ q2 :: t ++ b :: r) with (x6e :: x6f :: q2 :: t ++ b :: r) in H.
      eapply gives_bind; [rewrite codes_lit; apply (skipSeq_no j (lit "yes") s4 x6e _ y z H E N)|]. cbv iota. rewrite Pr.
      eapply gives_seq; [eapply o_seq; apply (dec_mv _ _ _ _ _ _ _ _ D4 H')|]. intros x s5 (-> & D5). eapply gives_mono; [eapply (o_dec _ _ _ _ _ _ 10 2 D5); lia|].
      intros [] s6 D6. rewrite zlen_app, Z.add_assoc. exact D6. }
  eapply gives_assoc; [exact G|]. intros [] s5 D5.
  eapply gives_seq; [eapply o_next; exact D5|]. intros [] s7 D7. eapply get_dec; [exact D7|]. rewrite (proj2 (quote_z q2) Hq2).
  eapply gives_mono; [eapply o_ws; [exact D7 | exact Ht | exact Hb]|]. intros [] s8 D8. rewrite <- app_assoc in D8. exact D8.
Qed.
Lemma sta_inv ts p l c la s s1 : Dec ts p l c la s -> 0 <= la < 2^31 -> processDecStandaloneAttr cf s = ROk tt s1 ->
  exists e b r, l = s_eq1 e ++ [x3d] ++ s_eq2 e ++ [s_q1 e] ++ sta_value e ++ [s_q2 e] ++ s_tail e ++ b :: r /\ wf_standalone e /\ space b = false.
Proof.
  intros HDc Hl K. unfold processDecStandaloneAttr in K. apply bind_inv in K. destruct K as ([] & s2 & K1 & K).
  destruct (i_ws _ _ _ _ _ _ _ HDc K1) as (w1 & b1 & r1 & -> & H1 & _ & D1). apply (get_dec_inv _ _ _ _ _ _ _ _ _ D1) in K; cbv beta in K.
  change CH_EQ with 61 in K. destruct (b2z b1 =? 61) eqn:E1; cbn [negb] in K; [|exfalso; revert K; apply parseErr_not]. bytes.
  apply bind_inv in K. destruct K as ([] & s3 & K1' & K). destruct (o_dec _ _ _ _ _ _ 9 10 D1 ltac:(lia) ltac:(lia) Hl) as ([] & s3' & E3 & D3).
  change TokDecAttrName with 9 in K1'. rewrite E3 in K1'. injection K1' as <-.
  apply bind_inv in K. destruct K as ([] & s4 & K2 & K). destruct (i_ws _ _ _ _ _ _ _ D3 K2) as (w2 & q1 & r2 & -> & H2 & _ & D4).
  apply bind_inv in K. destruct K as ([] & s5 & K3 & K). destruct (o_mark _ _ _ _ _ _ D4) as ([] & s5' & E5 & D5). rewrite E5 in K3. injection K3 as <-.
  apply (get_dec_inv _ _ _ _ _ _ _ _ _ D5) in K; cbv beta in K. destruct (notQuote (b2z q1)) eqn:Eq1; [exfalso; revert K; apply parseErr_not|]. apply quote_z in Eq1.
  pose proof (dec_bounds _ _ _ _ _ _ D5) as L5.
  apply bind_inv in K. destruct K as (y & s6 & K4 & K). apply bind_inv in K. destruct K as ([] & s7 & K5 & K).
  assert (G : exists j yes r3 tsn pn, r2 = (j ++ (if yes : bool then lit "yes" else lit "no")) ++ r3 /\ (j = [] \/ yes = false /\ (j = lit "y" \/ j = lit "ye")) /\ Dec tsn pn r3 (b2z q1) (p + zlen w1 + 1 + zlen w2 + 1) s7).
  { destruct (i_seq _ _ _ _ _ _ _ _ _ D5 K4) as [(-> & r & -> & D6)|(-> & t & x & z & d & r & E & -> & N & D6)].
    - destruct (o_dec _ _ _ _ _ _ 10 3 D6 ltac:(lia) ltac:(lia) L5) as ([] & s7' & E7 & D7). change TokDecAttrVal with 10 in K5. rewrite E7 in K5. injection K5 as <-.
      exists [], true, r. eexists _, _. split; [reflexivity|]. split; [left; reflexivity | exact D7].
    - apply bind_inv in K5. destruct K5 as (n & s8 & K6 & K5). destruct n; [|exfalso; revert K5; apply parseErr_not].
      destruct (i_seq _ _ _ _ _ _ _ _ _ D6 K6) as [(_ & r' & E' & D8)|(X & _)]; [|discriminate X].
      destruct (o_dec _ _ _ _ _ _ 10 2 D8 ltac:(lia) ltac:(lia) L5) as ([] & s7' & E7 & D7). change TokDecAttrVal with 10 in K5. rewrite E7 in K5. injection K5 as <-.
      exists t, false, r'. eexists _, _. split; [rewrite E', <- app_assoc; reflexivity|]. split; [|exact D7].
      change (lit "yes") with [x79; x65; x73] in E. destruct t as [|t1 [|t2 [|t3 t]]]; [left; reflexivity | right | right |]; try (split; [reflexivity|]).
      + left. injection E as <- _. reflexivity.
      + right. injection E as <- <- _. reflexivity.
      + exfalso. injection E as _ _ _ E. destruct t; discriminate E. }
  destruct G as (j & yes & r3 & tsn & pn & -> & Hj & D7).
  apply bind_inv in K. destruct K as ([] & s8 & K6 & K). destruct (i_next _ _ _ _ _ _ _ D7 K6) as (q2 & r5 & -> & D8). apply (get_dec_inv _ _ _ _ _ _ _ _ _ D8) in K; cbv beta in K.
  destruct (notQuote (b2z q2)) eqn:Eq2; [exfalso; revert K; apply parseErr_not|]. apply quote_z in Eq2.
  destruct (i_ws _ _ _ _ _ _ _ D8 K) as (t & b & r6 & -> & Ht & Hb & D9).
  exists (Sta w1 w2 q1 j yes q2 t), b, r6. split; [unfold sta_value; cbn [s_junk s_yes s_eq1 s_eq2 s_q1 s_q2 s_tail]; rewrite <- !app_assoc; reflexivity|]. split; [|exact Hb]. repeat (split; [assumption|]). assumption.
Qed.


(** ** The declaration *)
Lemma name_ok ts p w r s : Dec ts p (lit "ersion" ++ w ++ x3d :: r) 118 p s -> blank w = true -> 1 <= p ->
  gives (decVersionName cf) s (fun _ => Dec (ts ++ [Tok 9 (p - 1) 7 (-1)]) (p + 6 + zlen w + 1) r 61 p).
Proof.
  intros HDc Hw Hp. pose proof (dec_bounds _ _ _ _ _ _ HDc) as Lp. unfold decVersionName. eapply get_dec; [exact HDc|]. unfold andM at 1.
  eapply gives_seq with (P := fun b s1 => b = true /\ Dec ts (p + 6) (w ++ x3d :: r) 118 p s1).
  - eapply gives_bind; [reflexivity|]. change (118 =? 118) with true. cbv iota. eapply (o_seq ts p "ersion"). exact HDc.
  - intros b s1 (-> & D1). cbv iota. eapply gives_seq; [eapply o_ws; [exact D1 | exact Hw | reflexivity]|]. intros [] s2 D2.
    eapply get_dec; [exact D2|]. change (b2z x3d =? CH_EQ) with true. cbn [negb]. pose proof D2 as (((_ & _ & B3 & _) & _) & _ & _ & _ & _ & HL).
    apply (gives_eq _ (writeVtd 9 (p - 1) 7 (s_depth s2)) s2 s2).
    + rewrite bind_get. change (s_single s2) with (s_single s2). rewrite B3. change (s_last s2) with (s_last s2). rewrite HL. reflexivity.
    + apply (o_write _ _ _ _ _ _ 9 (p - 1) 7 D2); lia.
Qed.
Lemma name_inv ts p l c s s1 : Dec ts p l c p s -> 1 <= p -> decVersionName cf s = ROk tt s1 -> exists w r, l = lit "ersion" ++ w ++ x3d :: r /\ blank w = true /\ c = 118.
Proof.
  intros HDc Hp K. unfold decVersionName in K. apply (get_dec_inv _ _ _ _ _ _ _ _ _ HDc) in K. cbv beta in K.
  apply bind_inv in K. destruct K as (b & s2 & K1 & K). destruct b; [|exfalso; revert K; apply parseErr_not].
  unfold andM in K1. apply bind_inv in K1. destruct K1 as (x & s3 & Kx & K1). injection Kx as <- <-. destruct (Z.eqb_spec c 118) as [->|]; [|discriminate K1].
  destruct (i_seq _ _ _ _ _ _ _ _ _ HDc K1) as [(_ & r & -> & D1)|(X & _)]; [|discriminate X].
  apply bind_inv in K. destruct K as ([] & s4 & K2 & K). destruct (i_ws _ _ _ _ _ _ _ D1 K2) as (w & b & r1 & -> & Hw & _ & D2).
  apply (get_dec_inv _ _ _ _ _ _ _ _ _ D2) in K; cbv beta in K. change CH_EQ with 61 in K. destruct (b2z b =? 61) eqn:E1; cbn [negb] in K; [|exfalso; revert K; apply parseErr_not]. bytes.
  exists w, r1. auto.
Qed.
Definition restEnc (c : Z) : M unit :=
  if c =? 101 then b <- skipCharSeq cf (codes "ncoding") ;; if b then processDecEncodingAttr cf else parseErr cf "declaration should be encoding" else ret tt.
Definition restSta (c : Z) : M unit :=
  if c =? 115 then b <- skipCharSeq cf (codes "tandalone") ;; if b then processDecStandaloneAttr cf else parseErr cf "declaration should be standalone" else ret tt.
Definition oenc_toks (p : Z) (e : option encoding) : list tok := match e with Some e => enc_toks p e | None => [] end.
Definition osta_toks (p : Z) (a : option standalone) : list tok := match a with Some a => sta_toks p a | None => [] end.
Lemma restEnc_ok ts p e b l b' r s : b :: l = render_opt render_encoding e ++ b' :: r -> Dec ts p l (b2z b) (p - 1) s -> opt_ok wf_encoding e -> space b' = false ->
  (e = None -> b' <> x65) -> 1 <= p ->
  gives (restEnc (b2z b)) s (fun _ => let p' := p + zlen (render_opt render_encoding e) in Dec (ts ++ oenc_toks (p - 1) e) p' r (b2z b') (p' - 1)).
Proof.
  intros E HDc We Hb Hn Hp. pose proof (dec_bounds _ _ _ _ _ _ HDc) as Lp. unfold restEnc. destruct e as [e|]; cbn [render_opt opt_ok oenc_toks] in *.
  - unfold render_encoding in *. change (lit "encoding") with (x65 :: lit "ncoding") in *. rewrite <- !app_assoc, <- app_comm_cons in E. injection E as -> El. change (b2z x65 =? 101) with true. cbv iota.
    rewrite El in HDc.
    eapply gives_seq; [eapply o_seq; exact HDc|]. intros x s1 (-> & D1). cbv iota.
    eapply gives_mono; [eapply enc_ok; [exact D1 | exact We | exact Hb | lia]|]. intros [] s2 D2. cbv zeta.
    unfold enc_toks. change (zlen (lit "ncoding")) with 7 in D2. change (lit "=") with [x3d].
    cbn [app]. rewrite zlen_cons, !zlen_app, zlen_cons, !zlen_app, zlen_cons, !zlen_app, zlen_cons. change (zlen (lit "ncoding")) with 7.
    match type of D2 with Dec (_ ++ [_; Tok _ ?u _ _]) ?x _ _ ?y _ => match goal with |- Dec (_ ++ [_; Tok _ ?u' _ _]) ?x' _ _ ?y' _ => replace y' with y by lia; replace x' with x by lia; replace u' with u by lia end end. exact D2.
  - cbn [app] in E. injection E as <- <-. destruct (Z.eqb_spec (b2z b) 101) as [X|_].
    + exfalso. apply (Hn eq_refl). change 101 with (b2z x65) in X. apply b2z_inj. exact X.
    + apply gives_ret. cbv zeta. rewrite app_nil_r, zl0, Z.add_0_r. exact HDc.
Qed.
Lemma restEnc_inv ts p b l s s1 : Dec ts p l (b2z b) (p - 1) s -> 1 <= p -> space b = false -> restEnc (b2z b) s = ROk tt s1 ->
  exists e b' r, b :: l = render_opt render_encoding e ++ b' :: r /\ opt_ok wf_encoding e /\ space b' = false /\ (e = None -> b' <> x65).
Proof.
  intros HDc Hp Hb K. pose proof (dec_bounds _ _ _ _ _ _ HDc) as Lp. unfold restEnc in K. destruct (b2z b =? 101) eqn:E.
  - bytes. apply bind_inv in K. destruct K as (x & s2 & K1 & K). destruct x; [|exfalso; revert K; apply parseErr_not].
    destruct (i_seq _ _ _ _ _ _ _ _ _ HDc K1) as [(_ & r & -> & D1)|(X & _)]; [|discriminate X].
    destruct (enc_inv _ _ _ _ _ _ _ D1 ltac:(lia) K) as (e & b' & r' & -> & We & Hb'). exists (Some e), b', r'.
    split; [|split; [exact We | split; [exact Hb' | discriminate]]]. cbn [render_opt]. unfold render_encoding. rewrite <- !app_assoc. reflexivity.
  - exists None, b, l. split; [reflexivity|]. split; [exact I|]. split; [exact Hb|]. intros _ ->. discriminate E.
Qed.
Lemma restSta_ok ts p e b l b' r s : b :: l = render_opt render_standalone e ++ b' :: r -> Dec ts p l (b2z b) (p - 1) s -> opt_ok wf_standalone e -> space b' = false ->
  (e = None -> b' <> x73) -> 1 <= p ->
  gives (restSta (b2z b)) s (fun _ s1 => exists la, Dec (ts ++ osta_toks (p - 1) e) (p + zlen (render_opt render_standalone e)) r (b2z b') la s1).
Proof.
  intros E HDc We Hb Hn Hp. pose proof (dec_bounds _ _ _ _ _ _ HDc) as Lp. unfold restSta. destruct e as [e|]; cbn [render_opt opt_ok osta_toks] in *.
  - unfold render_standalone in *. change (lit "standalone") with (x73 :: lit "tandalone") in *. rewrite <- !app_assoc, <- app_comm_cons in E. injection E as -> El. change (b2z x73 =? 115) with true. cbv iota.
    rewrite El in HDc.
    eapply gives_seq; [eapply o_seq; exact HDc|]. intros x s1 (-> & D1). cbv iota.
    eapply gives_mono; [eapply sta_ok; [exact D1 | exact We | exact Hb | lia]|]. intros [] s2 D2. eexists.
    unfold sta_toks. change (zlen (lit "tandalone")) with 9 in D2. change (lit "=") with [x3d].
    cbn [app]. rewrite zlen_cons, !zlen_app, zlen_cons, !zlen_app, zlen_cons, !zlen_app, zlen_cons. change (zlen (lit "tandalone")) with 9.
    match type of D2 with Dec (_ ++ [_; Tok _ ?u _ _]) ?x _ _ _ _ => match goal with |- Dec (_ ++ [_; Tok _ ?u' _ _]) ?x' _ _ _ _ => replace x' with x by lia; replace u' with u by lia end end. exact D2.
  - cbn [app] in E. injection E as <- <-. destruct (Z.eqb_spec (b2z b) 115) as [X|_].
    + exfalso. apply (Hn eq_refl). change 115 with (b2z x73) in X. apply b2z_inj. exact X.
    + apply gives_ret. eexists. rewrite app_nil_r, zl0, Z.add_0_r. exact HDc.
Qed.
Lemma restSta_inv ts p b l s s1 : Dec ts p l (b2z b) (p - 1) s -> 1 <= p -> space b = false -> restSta (b2z b) s = ROk tt s1 ->
  exists e b' r, b :: l = render_opt render_standalone e ++ b' :: r /\ opt_ok wf_standalone e /\ space b' = false /\ (e = None -> b' <> x73).
Proof.
  intros HDc Hp Hb K. pose proof (dec_bounds _ _ _ _ _ _ HDc) as Lp. unfold restSta in K. destruct (b2z b =? 115) eqn:E.
  - bytes. apply bind_inv in K. destruct K as (x & s2 & K1 & K). destruct x; [|exfalso; revert K; apply parseErr_not].
    destruct (i_seq _ _ _ _ _ _ _ _ _ HDc K1) as [(_ & r & -> & D1)|(X & _)]; [|discriminate X].
    destruct (sta_inv _ _ _ _ _ _ _ D1 ltac:(lia) K) as (e & b' & r' & -> & We & Hb'). exists (Some e), b', r'.
    split; [|split; [exact We | split; [exact Hb' | discriminate]]]. cbn [render_opt]. unfold render_standalone. rewrite <- !app_assoc. reflexivity.
  - exists None, b, l. split; [reflexivity|]. split; [exact I|]. split; [exact Hb|]. intros _ ->. discriminate E.
Qed.
Lemma end_dec_ok ts p w r la s : Dec ts p (x3e :: w ++ x3c :: r) 63 la s -> blank w = true ->
  gives (decEnd cf) s (fun ps s1 => ps = StLtSeen /\ exists la, Dec ts (p + 1 + zlen w + 1) r 60 la s1).
Proof.
  intros HDc Hw. unfold decEnd. eapply get_dec; [exact HDc|]. unfold andM.
  eapply gives_seq with (P := fun b s1 => b = true /\ Dec ts (p + 1) (w ++ x3c :: r) 63 la s1).
  - eapply gives_bind; [reflexivity|]. change (63 =? CH_QM) with true. cbv iota. apply (o_skip ts p x3e _ _ _ _ HDc).
  - intros b s1 (-> & D1). cbv iota. eapply gives_seq; [eapply o_mark; exact D1|]. intros [] s2 D2.
    eapply gives_seq; [eapply o_ws; [exact D2 | exact Hw | reflexivity]|]. intros [] s3 D3. eapply get_dec; [exact D3|]. apply gives_ret. split; [reflexivity|]. eexists. exact D3.
Qed.
Lemma end_dec_inv ts p l c la s ps s1 : Dec ts p l c la s -> decEnd cf s = ROk ps s1 -> exists w r, l = x3e :: w ++ x3c :: r /\ blank w = true /\ c = 63.
Proof.
  intros HDc K. unfold decEnd in K. apply (get_dec_inv _ _ _ _ _ _ _ _ _ HDc) in K. cbv beta in K.
  apply bind_inv in K. destruct K as (b & s2 & K1 & K). destruct b; [|exfalso; revert K; apply parseErr_not].
  unfold andM in K1. apply bind_inv in K1. destruct K1 as (x & s3 & Kx & K1). injection Kx as <- <-. change CH_QM with 63 in K1. destruct (Z.eqb_spec c 63) as [->|]; [|discriminate K1].
  destruct (i_skip _ _ _ _ _ _ _ _ _ HDc K1) as (b & r & -> & [(_ & Eb & D1)|(X & _)]); [|discriminate X]. change CH_GT with (b2z x3e) in Eb. apply b2z_inj in Eb. subst b.
  apply bind_inv in K. destruct K as ([] & s4 & K2 & K). destruct (o_mark _ _ _ _ _ _ D1) as ([] & s5' & E5 & D5). rewrite E5 in K2. injection K2 as <-.
  apply bind_inv in K. destruct K as ([] & s6 & K3 & K). destruct (i_ws _ _ _ _ _ _ _ D5 K3) as (w & b & r1 & -> & Hw & _ & D2).
  apply (get_dec_inv _ _ _ _ _ _ _ _ _ D2) in K; cbv beta in K. change CH_LT with 60 in K. destruct (b2z b =? 60) eqn:E1; [|exfalso; revert K; apply parseErr_not]. bytes.
  exists w, r1. auto.
Qed.

Definition decRest (c : Z) : M unit :=
  if isSpaceChar c then nextCharAfterWs cf ;;; s <- get (fun s => s) ;; modify (set_last (s_off s - s_inc s)) ;;; c <- get s_cur ;; restEnc c ;;; c <- get s_cur ;; restSta c else ret tt.
Definition wf_rest (o : option (list byte * option encoding * option standalone)) : Prop :=
  match o with None => True | Some (w, e, a) => blank w = true /\ w <> [] /\ opt_ok wf_encoding e /\ opt_ok wf_standalone a end.
Definition rest_toks (px : Z) (o : option (list byte * option encoding * option standalone)) : list tok :=
  match o with
  | None => []
  | Some (w, e, a) => let pe := px + 4 + zlen w in oenc_toks pe e ++ osta_toks (pe + zlen (render_opt render_encoding e)) a
  end.
Lemma sta_first a r : exists b t, render_opt render_standalone a ++ x3f :: r = b :: t /\ space b = false /\ b <> x65.
Proof. destruct a as [a|]; eexists _, _; (split; [reflexivity | split; [reflexivity | discriminate]]). Qed.
Lemma enc_first e b t : space b = false -> exists b' t', render_opt render_encoding e ++ b :: t = b' :: t' /\ space b' = false.
Proof. intros H. destruct e as [a|]; eexists _, _; (split; [reflexivity|]); [reflexivity | exact H]. Qed.
Lemma gives_back {B} (k : M B) ts p l c la s P : Dec ts p l c la s -> (forall s1, Dec ts p l c (p - 1) s1 -> gives k s1 P) ->
  gives (bind (get (fun s => s)) (fun s => bind (modify (set_last (s_off s - s_inc s))) (fun _ => k))) s P.
Proof.
  intros HDc G. destruct (o_back _ _ _ _ _ _ HDc) as ([] & s1 & E & D1). apply (gives_eq _ k s s1); [|apply G, D1].
  change (backLast s) with (ROk tt (set_last (s_off s - s_inc s) s)) in E. injection E as <-. reflexivity.
Qed.
Lemma declRest_ok ts p c0 l o r la s : c0 :: l = render_rest o ++ x3f :: r -> Dec ts p l (b2z c0) la s -> wf_rest o -> 1 <= p ->
  gives (decRest (b2z c0)) s (fun _ s1 => exists la, Dec (ts ++ rest_toks (p - 5) o) (p + zlen (render_rest o)) r 63 la s1).
Proof.
  intros E HDc Wo Hp. unfold decRest. destruct o as [[[w e] a]|]; cbn [render_rest wf_rest rest_toks] in *; cbv zeta in *.
  - destruct Wo as (Hw & Nw & We & Wa). destruct w as [|w0 w]; [contradiction|]. cbn [app] in E. injection E as -> El.
    cbn [blank forallb] in Hw. apply andb_prop in Hw. destruct Hw as [Hw0 Hw]. fold (blank w) in Hw.
    destruct (isSpaceChar (b2z w0)) eqn:Es; [|rewrite isSpace_byte in Es; congruence].
    rewrite <- !app_assoc in El. destruct (sta_first a r) as (b2 & t2 & E2 & Hb2 & N2). rewrite E2 in El.
    destruct (enc_first e b2 t2 Hb2) as (b1 & t1 & E1 & Hb1). rewrite E1 in El. rewrite El in HDc.
    eapply gives_seq; [eapply o_ws; [exact HDc | exact Hw | exact Hb1]|]. intros [] s1 D1. pose proof (zlen_nonneg w) as Lw.
    eapply gives_back; [exact D1|]. intros s2 D2. eapply get_dec; [exact D2|].
    eapply gives_seq; [eapply (restEnc_ok _ _ e b1 t1 b2 t2); [symmetry; exact E1 | exact D2 | exact We | exact Hb2 | intros _; exact N2 | lia]|].
    intros [] s3 D3. cbv zeta in D3. eapply get_dec; [exact D3|]. pose proof (zlen_nonneg (render_opt render_encoding e)) as Le.
    eapply gives_mono; [eapply (restSta_ok _ _ a b2 t2 x3f r); [symmetry; exact E2 | exact D3 | exact Wa | reflexivity | intros _; discriminate | lia]|].
    intros [] s4 (la' & D4). exists la'. rewrite <- app_assoc in D4. rewrite !zlen_app, zlen_cons.
    match type of D4 with Dec (_ ++ oenc_toks ?u _ ++ osta_toks ?v _) ?x _ _ _ _ => match goal with |- Dec (_ ++ oenc_toks ?u' _ ++ osta_toks ?v' _) ?x' _ _ _ _ =>
      replace v' with v by lia; replace x' with x by lia; replace u' with u by lia end end. exact D4.
  - cbn [app] in E. injection E as -> ->. change (isSpaceChar (b2z x3f)) with false. cbv iota. apply gives_ret. exists la. rewrite app_nil_r, zl0, Z.add_0_r. exact HDc.
Qed.
Lemma declRest_inv ts p c0 l la s s1 : Dec ts p l (b2z c0) la s -> 1 <= p -> decRest (b2z c0) s = ROk tt s1 -> s_cur s1 = 63 ->
  exists o r, c0 :: l = render_rest o ++ x3f :: r /\ wf_rest o.
Proof.
  intros HDc Hp K Hc. unfold decRest in K. destruct (isSpaceChar (b2z c0)) eqn:Es.
  - rewrite isSpace_byte in Es. apply bind_inv in K. destruct K as ([] & s2 & K1 & K). destruct (i_ws _ _ _ _ _ _ _ HDc K1) as (w & b & t & -> & Hw & Hb & D2).
    pose proof (zlen_nonneg w) as Lw. destruct (o_back _ _ _ _ _ _ D2) as ([] & s3 & E3 & D3). change (backLast s2) with (ROk tt (set_last (s_off s2 - s_inc s2) s2)) in E3. injection E3 as E3.
    assert (K' : (c <- get s_cur ;; restEnc c ;;; c <- get s_cur ;; restSta c) s3 = ROk tt s1) by (rewrite <- E3; exact K). clear K.
    apply (get_dec_inv _ _ _ _ _ _ _ _ _ D3) in K'. cbv beta in K'. apply bind_inv in K'. destruct K' as ([] & s4 & K2 & K).
    destruct (restEnc_inv _ _ _ _ _ _ D3 ltac:(lia) Hb K2) as (e & b2 & t2 & E2 & We & Hb2 & N2).
    destruct (restEnc_ok _ _ _ _ _ _ _ _ E2 D3 We Hb2 N2 ltac:(lia)) as ([] & s4' & E4 & D4). rewrite E4 in K2. injection K2 as <-. cbv zeta in D4.
    apply (get_dec_inv _ _ _ _ _ _ _ _ _ D4) in K. cbv beta in K. pose proof (zlen_nonneg (render_opt render_encoding e)) as Le.
    destruct (restSta_inv _ _ _ _ _ _ D4 ltac:(lia) Hb2 K) as (a & b3 & t3 & E5 & Wa & Hb3 & N3).
    destruct (restSta_ok _ _ _ _ _ _ _ _ E5 D4 Wa Hb3 N3 ltac:(lia)) as ([] & s5 & E6 & la' & D5). rewrite E6 in K. injection K as <-.
    pose proof D5 as (_ & _ & _ & _ & Hc' & _). rewrite Hc in Hc'. change 63 with (b2z x3f) in Hc'. apply b2z_inj in Hc'. subst b3.
    exists (Some (c0 :: w, e, a)), t3. split; [cbn [render_rest]; rewrite <- !app_assoc, <- E5; rewrite <- E2; reflexivity|].
    split; [cbn [blank forallb]; rewrite Es; exact Hw|]. split; [discriminate|]. split; assumption.
  - injection K as <-. pose proof HDc as (_ & _ & _ & _ & Hc' & _). rewrite Hc in Hc'. change 63 with (b2z x3f) in Hc'. apply b2z_inj in Hc'. subst c0.
    exists None, l. split; [reflexivity | exact I].
Qed.
(** From the byte after the 'v' on. *)
Definition decl_text (d : decl) : list byte :=
  lit "ersion" ++ d_eq1 d ++ [x3d] ++ d_eq2 d ++ [d_quote d] ++ lit "1." ++ [d_minor d] ++ [d_quote d] ++ render_rest (d_rest d) ++ [x3f; x3e] ++ d_tail d ++ [x3c].
Definition version_toks (pv : Z) (d : decl) : list tok :=
  let px := pv + 7 + zlen (d_eq1 d) + 1 + zlen (d_eq2 d) + 1 in Tok 9 pv 7 (-1) :: Tok 10 px 3 (-1) :: rest_toks px (d_rest d).
Definition wf_version (d : decl) : Prop :=
  blank (d_eq1 d) = true /\ blank (d_eq2 d) = true /\ quote (d_quote d) /\ (d_minor d = x30 \/ d_minor d = x31) /\ wf_rest (d_rest d) /\ blank (d_tail d) = true.
Lemma rest_first o r : exists c l, render_rest o ++ x3f :: r = c :: l /\ (o = None \/ (exists w e a, o = Some (w, e, a) /\ w = []) \/ True).
Proof. destruct (render_rest o) as [|c l]; eexists _, _; (split; [reflexivity | auto]). Qed.
Lemma version_ok ts p d r s : Dec ts p (decl_text d ++ r) 118 p s -> wf_version d -> 1 <= p ->
  gives (processDecAttrName cf) s (fun ps s1 => ps = StLtSeen /\ exists la, Dec (ts ++ version_toks (p - 1) d) (p + zlen (decl_text d)) r 60 la s1).
Proof.
  destruct d as [dx dw w1 w2 q m o t]. unfold decl_text, version_toks, wf_version. cbn [d_xml d_ws d_eq1 d_eq2 d_quote d_minor d_rest d_tail].
  intros HDc (H1 & H2 & Hq & Hm & Wo & Ht) Hp. rewrite <- !app_assoc in HDc. unfold processDecAttrName.
  pose proof (zlen_nonneg w1) as L1. pose proof (zlen_nonneg w2) as L2.
  eapply gives_seq; [eapply name_ok; [exact HDc | exact H1 | exact Hp]|]. intros [] s1 D1. assert (Q1 : space q = false) by (destruct Hq as [->| ->]; reflexivity).
  cbn [app] in D1. eapply gives_seq; [eapply o_ws; [exact D1 | exact H2 | exact Q1]|]. intros [] s2 D2. eapply get_dec; [exact D2|]. rewrite (proj2 (quote_z q) Hq).
  eapply gives_seq; [eapply o_mark; exact D2|]. intros [] s3 D3. pose proof (dec_bounds _ _ _ _ _ _ D3) as L3.
  eapply gives_seq with (P := fun v s1 => v = true /\ Dec (ts ++ [Tok 9 (p - 1) 7 (-1)]) (p + 6 + zlen w1 + 1 + zlen w2 + 1 + 2 + 1) (q :: render_rest o ++ x3f :: x3e :: t ++ x3c :: r) (b2z q) (p + 6 + zlen w1 + 1 + zlen w2 + 1) s1).
  { unfold andM. eapply gives_seq; [eapply (o_seq _ _ "1."); exact D3|]. intros x s4 (-> & D4). cbv iota.
    change (m :: q :: render_rest o ++ x3f :: x3e :: t ++ x3c :: r) with (m :: (q :: render_rest o ++ x3f :: x3e :: t ++ x3c :: r)) in D4. eapply o_or; [exact D4|]. destruct Hm as [->| ->]; [left|right]; reflexivity. }
  intros v s4 (-> & D4). cbn [negb]. eapply gives_seq; [eapply (o_dec _ _ _ _ _ _ 10 3 D4); lia|]. intros [] s5 D5.
  eapply gives_seq; [eapply o_skip; exact D5|]. intros x s6 (-> & D6). cbn [negb].
  destruct (rest_first o (x3e :: t ++ x3c :: r)) as (c0 & l & E & _). rewrite E in D6. eapply gives_seq; [eapply o_next; exact D6|]. intros [] s7 D7. eapply get_dec; [exact D7|].
  fold (decRest (b2z c0)). eapply gives_seq; [eapply declRest_ok; [symmetry; exact E | exact D7 | exact Wo |]|].
  { change (zlen (lit "1.")) with 2. lia. }
  intros [] s8 (la & D8). eapply gives_mono; [eapply end_dec_ok; [exact D8 | exact Ht]|]. intros ps s9 (-> & la' & D9). split; [reflexivity|]. exists la'.
  rewrite <- !app_assoc in D9. cbn [app] in D9. change (zlen (lit "1.")) with 2 in D9.
  rewrite !zlen_app. change (zlen (lit "ersion")) with 6. change (zlen [x3d]) with 1. change (zlen [q]) with 1. change (zlen (lit "1.")) with 2. change (zlen [m]) with 1. change (zlen [x3f; x3e]) with 2. change (zlen [x3c]) with 1.
  match type of D9 with Dec (_ ++ _ :: Tok _ ?u _ _ :: rest_toks ?v _) ?x _ _ _ _ => match goal with |- Dec (_ ++ _ :: Tok _ ?u' _ _ :: rest_toks ?v' _) ?x' _ _ _ _ =>
      replace v with u' in D9 by lia; replace x' with x by lia; replace u' with u in D9 |- * by lia end end. exact D9.
Qed.

Lemma version_inv ts p l c s ps s1 dx dw : Dec ts p l c p s -> 1 <= p -> processDecAttrName cf s = ROk ps s1 ->
  exists d r, d_xml d = dx /\ d_ws d = dw /\ l = decl_text d ++ r /\ wf_version d /\ c = 118.
Proof.
  intros HDc Hp K. unfold processDecAttrName in K. apply bind_inv in K. destruct K as ([] & s2 & K1 & K).
  destruct (name_inv _ _ _ _ _ _ HDc Hp K1) as (w1 & r1 & -> & H1 & ->). destruct (name_ok _ _ _ _ _ HDc H1 Hp) as ([] & s2' & E2 & D2). rewrite E2 in K1. injection K1 as <-.
  pose proof (zlen_nonneg w1) as L1.
  apply bind_inv in K. destruct K as ([] & s3 & K2 & K). destruct (i_ws _ _ _ _ _ _ _ D2 K2) as (w2 & q & r2 & -> & H2 & _ & D3). pose proof (zlen_nonneg w2) as L2.
  apply (get_dec_inv _ _ _ _ _ _ _ _ _ D3) in K; cbv beta in K. destruct (notQuote (b2z q)) eqn:Eq1; [exfalso; revert K; apply parseErr_not|]. apply quote_z in Eq1.
  apply bind_inv in K. destruct K as ([] & s4 & K3 & K). destruct (o_mark _ _ _ _ _ _ D3) as ([] & s4' & E4 & D4). rewrite E4 in K3. injection K3 as <-.
  pose proof (dec_bounds _ _ _ _ _ _ D4) as L4.
  apply bind_inv in K. destruct K as (v & s5 & K4 & K). destruct v; cbn [negb] in K; [|exfalso; revert K; apply parseErr_not].
  unfold andM in K4. apply bind_inv in K4. destruct K4 as (x & s6 & K5 & K4). destruct x; [|discriminate K4].
  destruct (i_seq _ _ _ _ _ _ _ _ _ D4 K5) as [(_ & r3 & -> & D5)|(X & _)]; [|discriminate X].
  destruct (i_or _ _ _ _ _ _ _ _ _ _ D5 K4) as (m & r4 & -> & [(_ & Em & D6)|(X & _)]); [|discriminate X].
  assert (Hm : m = x30 \/ m = x31). { destruct Em as [Em|Em]; [left|right]; apply b2z_inj; rewrite Em; reflexivity. }
  apply bind_inv in K. destruct K as ([] & s7 & K6 & K). destruct (o_dec _ _ _ _ _ _ 10 3 D6 ltac:(lia) ltac:(lia) L4) as ([] & s7' & E7 & D7).
  change TokDecAttrVal with 10 in K6. rewrite E7 in K6. injection K6 as <-.
  apply bind_inv in K. destruct K as (x & s8 & K7 & K). destruct x; cbn [negb] in K; [|exfalso; revert K; apply parseErr_not].
  destruct (i_skip _ _ _ _ _ _ _ _ _ D7 K7) as (q' & r5 & -> & [(_ & Eq & D8)|(X & _)]); [|discriminate X]. apply b2z_inj in Eq. subst q'.
  apply bind_inv in K. destruct K as ([] & s9 & K8 & K). destruct (i_next _ _ _ _ _ _ _ D8 K8) as (c0 & r6 & -> & D9).
  apply (get_dec_inv _ _ _ _ _ _ _ _ _ D9) in K; cbv beta in K. apply bind_inv in K. destruct K as ([] & s10 & K9 & K).
  change (decRest (b2z c0) s9 = ROk tt s10) in K9.
  assert (Hc : s_cur s10 = 63).
  { pose proof K as X. unfold decEnd in X. rewrite bind_get in X. apply bind_inv in X. destruct X as (y & s11 & X1 & X). destruct y; [|exfalso; revert X; apply parseErr_not].
    unfold andM in X1. apply bind_inv in X1. destruct X1 as (z & s12 & X2 & X1). injection X2 as <- <-. change CH_QM with 63 in X1. destruct (Z.eqb_spec (s_cur s10) 63) as [e|]; [exact e | discriminate X1]. }
  change (zlen (lit "1.")) with 2 in *.
  destruct (declRest_inv _ _ _ _ _ _ _ D9 ltac:(lia) K9 Hc) as (o & r7 & E9 & Wo). destruct (declRest_ok _ _ _ _ _ _ _ _ E9 D9 Wo ltac:(lia)) as ([] & s10' & E10 & la & D10).
  rewrite E10 in K9. injection K9 as <-. destruct (end_dec_inv _ _ _ _ _ _ _ _ D10 K) as (t & r8 & -> & Ht & _).
  exists (Decl dx dw w1 w2 q m o t), r8. split; [reflexivity|]. split; [reflexivity|]. split; [|split; [|reflexivity]].
  - unfold decl_text. cbn [d_xml d_ws d_eq1 d_eq2 d_quote d_minor d_rest d_tail]. rewrite <- !app_assoc. cbn [app]. rewrite E9. reflexivity.
  - unfold wf_version. cbn [d_xml d_ws d_eq1 d_eq2 d_quote d_minor d_rest d_tail]. repeat (split; [assumption|]). assumption.
Qed.

(** ** The start of the document *)
Lemma xml_like_inv x : xml_like x -> exists a b c, x = [a; b; c] /\ one_of "xX" a /\ one_of "mM" b /\ one_of "lL" c.
Proof. unfold xml_like. destruct x as [|a [|b [|c [|]]]]; try contradiction. intros (H1 & H2 & H3). exists a, b, c. auto. Qed.
Lemma junk_case j b t s p : Pos p s -> At p (j ++ b :: t) -> junk_then j b ->
  skipXmlDecl cf s = ROk (4 <=? zlen j) (mv (p + zlen j) s) /\ (zlen j < 4 \/ zlen j = 4 /\ space b = false /\ b <> x3f).
Proof.
  intros P H J. pose proof (xmlDecl_is s p _ P H) as X. destruct j as [|j1 [|j2 [|j3 [|j4 j]]]].
  - cbn [app junk_then] in *. change (zlen []) with 0. split; [|left; lia].
    destruct X as [(x & m & k & r & E & _)|[(j' & b' & t' & E & Lj & J' & X)|(_ & X)]].
    + injection E as -> _. contradiction.
    + destruct j' as [|a j']; [exact X|]. exfalso. cbn [app] in E. injection E as -> E. destruct j' as [|? [|? [|? j']]]; cbn in J'; try (destruct J' as (-> & _); contradiction J; reflexivity).
    + cbn in X. exfalso. destruct t as [|? [|? [|? t]]]; [apply J; exact X | destruct X as (X & _); apply J, X | destruct X as (X & _); apply J, X | exact X].
  - cbn [app junk_then] in *. destruct J as (-> & J). change (zlen [x3f]) with 1. split; [|left; lia].
    destruct X as [(x & m & k & r & E & (Y & _) & _)|[(j' & b' & t' & E & Lj & J' & X)|(_ & X)]].
    + injection E as -> _. contradiction.
    + destruct j' as [|a j']; cbn [app] in E; [injection E as <- _; cbn in J'; contradiction J'; reflexivity|]. injection E as <- E.
      destruct j' as [|a1 j']; [exact X|]. exfalso. injection E as <- E. destruct j' as [|? [|? j']]; cbn in J', Lj; [| |lia]; destruct J' as (_ & Y & _); contradiction.
    + cbn in X. exfalso. destruct t as [|? [|? t]]; [destruct X as (_ & X); contradiction | destruct X as (_ & X & _); contradiction | exact X].
  - cbn [app junk_then] in *. destruct J as (-> & J1 & J). change (zlen [x3f; j2]) with 2. split; [|left; lia].
    destruct X as [(x & m & k & r & E & (_ & Y & _) & _)|[(j' & b' & t' & E & Lj & J' & X)|(_ & X)]].
    + injection E as _ -> _. contradiction.
    + destruct j' as [|a j']; cbn [app] in E; [injection E as <- _; cbn in J'; contradiction J'; reflexivity|]. injection E as <- E.
      destruct j' as [|a1 j']; [cbn [app] in E; injection E as <- _; cbn in J'; destruct J'; contradiction|]. injection E as <- E.
      destruct j' as [|a2 j']; [exact X|]. exfalso. injection E as <- E. destruct j' as [|? j']; cbn in J', Lj; [|lia]; destruct J' as (_ & _ & Y & _); contradiction.
    + cbn in X. exfalso. destruct t as [|? t]; [destruct X as (_ & _ & X); contradiction | exact X].
  - cbn [app junk_then] in *. destruct J as (-> & J1 & J2 & J). change (zlen [x3f; j2; j3]) with 3. split; [|left; lia].
    destruct X as [(x & m & k & r & E & (_ & _ & Y) & _)|[(j' & b' & t' & E & Lj & J' & X)|(_ & X)]].
    + injection E as _ _ -> _. contradiction.
    + destruct j' as [|a j']; cbn [app] in E; [injection E as <- _; cbn in J'; contradiction J'; reflexivity|]. injection E as <- E.
      destruct j' as [|a1 j']; [cbn [app] in E; injection E as <- _; cbn in J'; destruct J'; contradiction|]. injection E as <- E.
      destruct j' as [|a2 j']; [cbn [app] in E; injection E as <- _; cbn in J'; destruct J' as (_ & _ & ?); contradiction|]. injection E as <- E.
      destruct j' as [|a3 j']; [exact X|]. cbn in Lj. lia.
    + cbn in X. contradiction.
  - cbn [junk_then] in J. destruct J as (-> & Jx & Jb & Nb). apply xml_like_inv in Jx. destruct Jx as (a & bb & c & E0 & Ha & Hb & Hc). injection E0 as -> -> -> ->.
    change (zlen [x3f; a; bb; c]) with 4. split; [|right; auto]. cbn [app] in *.
    destruct X as [(x & m & k & r & E & _ & X)|[(j' & b' & t' & E & Lj & J' & X)|(_ & X)]].
    + exact X.
    + exfalso. destruct j' as [|a' j']; cbn [app] in E; [injection E as <- _; cbn in J'; contradiction J'; reflexivity|]. injection E as <- E.
      destruct j' as [|a1 j']; [cbn [app] in E; injection E as <- _; cbn in J'; destruct J'; contradiction|]. injection E as <- E.
      destruct j' as [|a2 j']; [cbn [app] in E; injection E as <- _; cbn in J'; destruct J' as (_ & _ & ?); contradiction|]. injection E as <- E.
      destruct j' as [|a3 j']; [cbn [app] in E; injection E as <- _; cbn in J'; destruct J' as (_ & _ & _ & ?); contradiction|]. cbn in Lj. lia.
    + cbn in X. contradiction.
Qed.

Lemma reach_step ps s ps' s' : ps <> StDocEnd -> step cf ps s = ROk ps' s' -> reach ps s ps' s'.
Proof. intros N E. exact (goes_leads ps s _ s ps' s' (goes_step ps s (step cf ps) s N eq_refl) (leads_ret _ s ps' s' E)). Qed.
Lemma dec_ready ts p l c la s : Dec ts p l c la s -> Ready [] p [] ts l StLtSeen s.
Proof.
  intros (Q & _ & [Po Pr] & H & _). split; [exact Q|]. split; [exact H|]. left. split; [reflexivity|]. split; [exact Po|]. rewrite zl0, Z.add_0_r. split; [exact Pr|]. exists l. reflexivity.
Qed.
Lemma vtoks p d : decl_toks p d = version_toks (p + 5 + zlen (d_ws d)) d.
Proof. unfold decl_toks, version_toks, rest_toks. destruct (d_rest d) as [[[w e] a]|]; reflexivity. Qed.
Lemma blank_head w : blank w = true -> w <> [] -> exists w0 w', w = w0 :: w' /\ space w0 = true /\ blank w' = true.
Proof. destruct w as [|w0 w]; [contradiction|]. cbn [blank forallb]. intros H _. apply andb_prop in H. destruct H. exists w0, w. auto. Qed.
Lemma space_eqs b : space b = true -> (b2z b =? CH_LT) = false /\ (b2z b =? CH_SP) || (b2z b =? CH_TAB) || (b2z b =? CH_LF) || (b2z b =? CH_CR) = true.
Proof. destruct b; try discriminate; intros _; split; reflexivity. Qed.
Lemma eqs_space b : (b2z b =? CH_SP) || (b2z b =? CH_TAB) || (b2z b =? CH_LF) || (b2z b =? CH_CR) = true -> space b = true.
Proof. destruct b; try discriminate; reflexivity. Qed.
Theorem start_ok ts p S l c la s : Dec ts p (render_start S ++ l) c la s -> wf_start S l ->
  exists s', reach StDocStart s StLtSeen s' /\ Ready (junk_of S) (p + zlen (render_start S)) [] (ts ++ start_toks p S) l StLtSeen s'.
Proof.
  intros HDc W. pose proof (dec_bounds _ _ _ _ _ _ HDc) as Lp. destruct S as [j|w|d]; cbn [render_start wf_start junk_of start_toks] in *.
  - destruct W as (b & t & -> & J). change (lit "<") with [x3c] in *. cbn [app] in HDc.
    destruct (o_next _ _ _ _ _ _ _ HDc) as ([] & s1 & E1 & D1). destruct (o_mark _ _ _ _ _ _ D1) as ([] & s2 & E2 & D2).
    pose proof D2 as (Q2 & M2 & P2 & H2 & _ & L2). destruct (junk_case _ _ _ _ _ P2 H2 J) as (E3 & Hj).
    exists (set_off (p + 1) (mv (p + 1 + zlen j) s2)). split.
    + apply reach_step; [discriminate|]. cbn [step]. unfold processDocStart. rewrite (bind_ok _ _ _ _ _ E1). rewrite bind_get.
      pose proof D1 as (_ & _ & _ & _ & C1 & _). change (s_cur s1) with (s_cur s1). rewrite C1. change (b2z x3c =? CH_LT) with true. cbv iota. rewrite (bind_ok _ _ _ _ _ E2), (bind_ok _ _ _ _ _ E3).
      destruct Hj as [Hj|(Hj & Sb & Nb)].
      * destruct (Z.leb_spec 4 (zlen j)); [lia|]. rewrite bind_get. change (s_last (mv (p + 1 + zlen j) s2)) with (s_last s2). rewrite L2. reflexivity.
      * rewrite Hj. change (4 <=? 4) with true. cbv iota. set (s3 := mv (p + 1 + 4) s2). assert (H3 : At (s_roff s3) (b :: t)). { apply At_app in H2. rewrite Hj in H2. exact H2. }
        assert (E4 : skipOneSpace cf s3 = ROk false s3). { rewrite (oneSpace_cons _ _ _ H3), Sb. reflexivity. }
        rewrite (bind_ok _ _ _ _ _ E4). cbv iota.
        assert (E5 : skipChar cf CH_QM s3 = ROk false s3). { rewrite (skipChar_cons _ _ _ _ H3). destruct (Z.eqb_spec CH_QM (b2z b)) as [X|X]; [|reflexivity]. change CH_QM with (b2z x3f) in X. apply b2z_inj in X. congruence. }
        rewrite (bind_ok _ _ _ _ _ E5). cbv iota. rewrite bind_get. change (s_last s3) with (s_last s2). rewrite L2. reflexivity.
    + rewrite app_nil_r. change (zlen [x3c]) with 1. split; [exact Q2|]. split; [exact H2|]. left. split; [reflexivity|]. split; [reflexivity|]. split; [reflexivity|]. eexists. reflexivity.
  - destruct W as (Hw & Nw). change (lit "<") with [x3c] in *. rewrite <- app_assoc in HDc. destruct (blank_head w Hw Nw) as (w0 & w' & -> & Sw & Hw'). cbn [app] in HDc.
    destruct (o_next _ _ _ _ _ _ _ HDc) as ([] & s1 & E1 & D1). destruct (o_ws _ _ _ _ _ _ _ _ D1 Hw' eq_refl) as ([] & s2 & E2 & D2). exists s2. split.
    + apply reach_step; [discriminate|]. cbn [step]. unfold processDocStart. rewrite (bind_ok _ _ _ _ _ E1). rewrite bind_get.
      pose proof D1 as (_ & _ & _ & _ & C1 & _). change (s_cur s1) with (s_cur s1). rewrite C1. destruct (space_eqs _ Sw) as (X1 & X2). rewrite X1, X2. cbv iota. unfold catch. rewrite E2. rewrite bind_get.
      pose proof D2 as (_ & _ & _ & _ & C2 & _). change (s_cur s2) with (s_cur s2). rewrite C2. reflexivity.
    + rewrite app_nil_r, zlen_app, zlen_cons. change (zlen [x3c]) with 1. replace (p + (zlen w' + 1 + 1)) with (p + 1 + zlen w' + 1) by lia. apply (dec_ready _ _ _ _ _ _ D2).
  - destruct W as (Wx & Hw & Nw & Wd). assert (Wv : wf_version d). { destruct Wd as (W1 & W2 & W3 & W4 & W5 & W6). split; [exact W1|]. split; [exact W2|]. split; [exact W3|]. split; [exact W4|]. split; [exact W5 | exact W6]. }
    clear Wd. destruct (xml_like_inv _ Wx) as (x & m & k & Ex & Hx & Hm & Hk). destruct (blank_head _ Hw Nw) as (w0 & w' & Ew & Sw & Hw').
    assert (ER : render_decl d ++ lit "<" = x3c :: x3f :: x :: m :: k :: d_ws d ++ x76 :: decl_text d).
    { unfold render_decl, decl_text. rewrite Ex. rewrite <- !app_assoc. reflexivity. }
    rewrite ER in HDc |- *. rewrite Ew in HDc. cbn [app] in HDc. rewrite <- app_assoc in HDc. cbn [app] in HDc.
    destruct (o_next _ _ _ _ _ _ _ HDc) as ([] & s1 & E1 & D1). destruct (o_mark _ _ _ _ _ _ D1) as ([] & s2 & E2 & D2).
    pose proof D2 as (Q2 & M2 & P2 & H2 & C2 & L2).
    assert (E3 : skipXmlDecl cf s2 = ROk true (mv (p + 1 + 4) s2)).
    { destruct (xmlDecl_is _ _ _ P2 H2) as [(x' & m' & k' & r & E & _ & X)|[(j' & b' & t' & E & Lj & J' & X)|(_ & X)]]; [exact X | exfalso | exfalso; exact X].
      destruct j' as [|a' j']; cbn [app] in E; [injection E as <- _; cbn in J'; contradiction J'; reflexivity|]. injection E as <- E.
      destruct j' as [|a1 j']; [cbn [app] in E; injection E as <- _; cbn in J'; destruct J'; contradiction|]. injection E as <- E.
      destruct j' as [|a2 j']; [cbn [app] in E; injection E as <- _; cbn in J'; destruct J' as (_ & _ & ?); contradiction|]. injection E as <- E.
      destruct j' as [|a3 j']; [cbn [app] in E; injection E as <- _; cbn in J'; destruct J' as (_ & _ & _ & ?); contradiction|]. cbn in Lj. lia. }
    assert (H3 : At (p + 1 + 4) (w0 :: w' ++ x76 :: decl_text d ++ l)). { apply (At_app _ [x3f; x; m; k] _) in H2. exact H2. }
    pose proof (dec_mv _ _ _ _ _ _ _ _ D2 H3) as D3. set (s3 := mv (p + 1 + 4) s2) in *. pose proof (At_cons _ _ _ H3) as (_ & _ & H4).
    assert (E4 : skipOneSpace cf s3 = ROk true (mv (p + 1 + 4 + 1) s3)). { rewrite (oneSpace_cons s3 w0 _ H3), Sw. reflexivity. }
    pose proof (dec_mv _ _ _ _ _ _ _ _ D3 H4) as D4. set (s4 := mv (p + 1 + 4 + 1) s3) in *.
    destruct (o_ws _ _ _ _ _ _ _ _ D4 Hw' eq_refl) as ([] & s5 & E5 & D5). destruct (o_mark _ _ _ _ _ _ D5) as ([] & s6 & E6 & D6). pose proof (zlen_nonneg w') as Lw.
    destruct (version_ok _ _ _ _ _ D6 Wv ltac:(lia)) as (ps & s7 & E7 & -> & la' & D7). exists s7. split.
    + apply (reach_trans _ _ StDecAttrName s6); [|apply reach_step; [discriminate | exact E7]]. apply reach_step; [discriminate|]. cbn [step]. unfold processDocStart. rewrite (bind_ok _ _ _ _ _ E1). rewrite bind_get.
      pose proof D1 as (_ & _ & _ & _ & C1 & _). change (s_cur s1) with (s_cur s1). rewrite C1. change (b2z x3c =? CH_LT) with true. cbv iota. rewrite (bind_ok _ _ _ _ _ E2), (bind_ok _ _ _ _ _ E3), (bind_ok _ _ _ _ _ E4), (bind_ok _ _ _ _ _ E5), (bind_ok _ _ _ _ _ E6). reflexivity.
    + rewrite vtoks. rewrite !zlen_cons, zlen_app, zlen_cons, Ew, zlen_cons.
      match type of D7 with Dec (_ ++ version_toks ?u _) ?x _ _ _ _ => match goal with |- Ready _ ?x' _ (_ ++ version_toks ?u' _) _ _ _ => replace x' with x by lia; replace u' with u by lia end end.
      apply (dec_ready _ _ _ _ _ _ D7).
Qed.
Theorem start_inv n ts p l c la s sf : Dec ts p l c la s -> loop n StDocStart s = ROk tt sf -> exists S l', l = render_start S ++ l' /\ wf_start S l'.
Proof.
  intros HDc K. pose proof (dec_bounds _ _ _ _ _ _ HDc) as Lp. destruct n as [|n]; [discriminate K|]. rewrite (loop_step n StDocStart s ltac:(discriminate)) in K. apply andThen_inv in K. destruct K as (ps & s0 & K & KL).
  cbn [step] in K. unfold processDocStart in K. apply bind_inv in K. destruct K as ([] & s1 & K1 & K). destruct (i_next _ _ _ _ _ _ _ HDc K1) as (b & r & -> & D1).
  apply (get_dec_inv _ _ _ _ _ _ _ _ _ D1) in K; cbv beta in K. destruct (b2z b =? CH_LT) eqn:Eb.
  - change CH_LT with 60 in Eb. bytes. cbv zeta in K. apply bind_inv in K. destruct K as ([] & s2 & K2 & K). destruct (o_mark _ _ _ _ _ _ D1) as ([] & s2' & E2 & D2). rewrite E2 in K2. injection K2 as <-.
    pose proof D2 as (Q2 & M2 & P2 & H2 & C2 & L2). apply bind_inv in K. destruct K as (x & s3 & K3 & K).
    destruct (xmlDecl_is _ _ _ P2 H2) as [(x' & m & k & t & -> & Hx & X)|[(j & b & t & -> & Lj & J & X)|((w & X) & _)]]; rewrite X in K3; [| |discriminate K3]; injection K3 as <- <-.
    + assert (H3 : At (p + 1 + 4) t). { apply (At_app _ [x3f; x'; m; k] _) in H2. exact H2. } pose proof (dec_mv _ _ _ _ _ _ _ _ D2 H3) as D3. set (s3 := mv (p + 1 + 4) s2') in *.
      apply bind_inv in K. destruct K as (sp & s4 & K4 & K). destruct t as [|w0 t]; [rewrite (oneSpace_nil s3 H3) in K4; discriminate K4|]. rewrite (oneSpace_cons s3 w0 t H3) in K4.
      pose proof (At_cons _ _ _ H3) as (_ & _ & H4). change (s_roff s3) with (p + 1 + 4) in K4. destruct (space w0) eqn:Sw; injection K4 as <- <-.
      * pose proof (dec_mv _ _ _ _ _ _ _ _ D3 H4) as D4. set (s4 := mv (p + 1 + 4 + 1) s3) in *. apply bind_inv in K. destruct K as ([] & s5 & K5 & K).
        destruct (i_ws _ _ _ _ _ _ _ D4 K5) as (w' & v & r5 & -> & Hw & Hv & D5). pose proof (zlen_nonneg w') as Lw.
        apply bind_inv in K. destruct K as ([] & s6 & K6 & K). destruct (o_mark _ _ _ _ _ _ D5) as ([] & s6' & E6 & D6). rewrite E6 in K6. injection K6 as <-. injection K as <- <-.
        destruct n as [|n]; [discriminate KL|]. rewrite (loop_step n StDecAttrName s6' ltac:(discriminate)) in KL. apply andThen_inv in KL. destruct KL as (ps & s0 & K & _). cbn [step] in K.
        destruct (version_inv _ _ _ _ _ _ _ [x'; m; k] (w0 :: w') D6 ltac:(lia) K) as (d & r6 & Ex & Ew & -> & Wv & Ev). change 118 with (b2z x76) in Ev. apply b2z_inj in Ev. subst v.
        exists (SDecl d), r6. split.
        -- cbn [render_start]. unfold render_decl, decl_text. rewrite Ex, Ew. rewrite <- !app_assoc. reflexivity.
        -- destruct Wv as (W1 & W2 & W3 & W4 & W5 & W6). cbn [wf_start]. unfold wf_decl. rewrite Ex, Ew. split; [exact Hx|]. split; [cbn [blank forallb]; rewrite Sw; exact Hw|]. split; [discriminate|].
           split; [exact W1|]. split; [exact W2|]. split; [exact W3|]. split; [exact W4|]. split; [exact W5 | exact W6].
      * apply bind_inv in K. destruct K as (q & s5 & K5 & K). rewrite (skipChar_cons (mv (p + 1 + 4) s3) w0 t CH_QM H3) in K5. change CH_QM with (b2z x3f) in K5. rewrite b2z_eqb in K5.
        destruct (Byte.eqb x3f w0) eqn:Eq; injection K5 as <- <-; [exfalso; revert K; apply parseErr_not|].
        exists (SPlain [x3f; x'; m; k]), ([x3f; x'; m; k] ++ w0 :: t). split; [reflexivity|]. exists w0, t. split; [reflexivity|]. split; [reflexivity|]. split; [exact Hx|]. split; [exact Sw|]. intros ->. discriminate Eq.
    + exists (SPlain j), (j ++ b :: t). split; [reflexivity|]. exists b, t. auto.
  - destruct ((b2z b =? CH_SP) || (b2z b =? CH_TAB) || (b2z b =? CH_LF) || (b2z b =? CH_CR)) eqn:Es.
    + unfold catch in K. destruct (nextCharAfterWs cf s1) as [[] s2|e s2|w|] eqn:E2; try discriminate K.
      * destruct (i_ws _ _ _ _ _ _ _ D1 E2) as (w & v & t & -> & Hw & _ & D2). apply (get_dec_inv _ _ _ _ _ _ _ _ _ D2) in K; cbv beta in K. destruct (b2z v =? CH_LT) eqn:Ev.
        -- change CH_LT with 60 in Ev. bytes. exists (SBlank (b :: w)), t. split; [cbn [render_start]; rewrite <- app_assoc; reflexivity|]. split; [|discriminate]. cbn [blank forallb]. rewrite (eqs_space _ Es). exact Hw.
        -- injection K as <- <-. exfalso. destruct n as [|n]; [discriminate KL|]. rewrite (loop_step n StInvalid s2 ltac:(discriminate)) in KL. apply andThen_inv in KL. destruct KL as (ps & s0 & K & _). revert K. apply parseErr_not.
      * injection K as <- <-. exfalso. destruct n as [|n]; [discriminate KL|]. rewrite (loop_step n StInvalid s2 ltac:(discriminate)) in KL. apply andThen_inv in KL. destruct KL as (ps & s0 & K & _). revert K. apply parseErr_not.
    + injection K as <- <-. exfalso. destruct n as [|n]; [discriminate KL|]. rewrite (loop_step n StInvalid s1 ltac:(discriminate)) in KL. apply andThen_inv in KL. destruct KL as (ps & s0 & K & _). revert K. apply parseErr_not.
Qed.
End Start.
