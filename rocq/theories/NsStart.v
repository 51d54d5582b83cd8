(** Whole start tags with namespace awareness. *)
From Verif Require Import Lib XmlChar XmlCharProofs Buffer BufferProofs Reader ParserState ParserPrim ParserProc ParserMain
  SpecParse SpecChar SpecDoc SpecScope ParserWp ParserInv ParserInvTag ParserInvMain TokenProofs SpecToken RelAware DocScan DocBase DocGap DocTag NsBase NsUrl NsLoop NsTag NsAttr.

Lemma znth_In {A} (l : list A) i x : znth l i = Some x -> In x l.
Proof. unfold znth. destruct (_ || _); [discriminate|]. apply nth_error_In. Qed.
Lemma znth_map {A B} (f : A -> B) l i : znth (map f l) i = option_map f (znth l i).
Proof. unfold znth, zlen. rewrite map_length. destruct (_ || _); [reflexivity|]. apply nth_error_map. Qed.
(** ** Colons at the two places [checkXmlnsPrefix] looks for *)
Fixpoint hit (i : Z) (t : list byte) : bool :=
  match t with [] => false | b :: t' => (Byte.eqb b x3a && ((i =? 5) || (i =? 10))) || hit (i + 1) t' end.
Definition colon_in (t : list byte) (i : Z) : bool := (0 <=? i) && match nth_error t (Z.to_nat i) with Some b => Byte.eqb b x3a | None => false end.
Lemma colon_in_cons b t i : colon_in (b :: t) i = (i =? 0) && Byte.eqb b x3a || colon_in t (i - 1).
Proof.
  unfold colon_in. destruct (Z.eqb_spec i 0) as [->|N]; [cbn; rewrite orb_false_r; reflexivity|]. cbn [andb orb]. destruct (Z.leb_spec 0 i); cbn [andb].
  - replace (Z.to_nat i) with (S (Z.to_nat (i - 1))) by lia. cbn [nth_error]. destruct (Z.leb_spec 0 (i - 1)); [reflexivity | lia].
  - destruct (Z.leb_spec 0 (i - 1)); [lia | reflexivity].
Qed.
Lemma hit_is t : forall i, hit i t = colon_in t (5 - i) || colon_in t (10 - i).
Proof.
  induction t as [|b t IH]; intros i; cbn [hit].
  - unfold colon_in. destruct (0 <=? 5 - i), (0 <=? 10 - i); destruct (Z.to_nat (5 - i)), (Z.to_nat (10 - i)); reflexivity.
  - rewrite IH, !colon_in_cons. replace (5 - i =? 0) with (i =? 5) by lia. replace (10 - i =? 0) with (i =? 10) by lia.
    replace (5 - (i + 1)) with (5 - i - 1) by lia. replace (10 - (i + 1)) with (10 - i - 1) by lia.
    destruct (Byte.eqb b x3a), (i =? 5), (i =? 10), (colon_in t (5 - i - 1)), (colon_in t (10 - i - 1)); reflexivity.
Qed.
Lemma colon_at_in j b t i : colon_at j (j ++ b :: t) i = colon_in t (i - (zlen j + 1)).
Proof.
  unfold colon_at, colon_in. pose proof (zlen_nonneg j). destruct (Z.ltb_spec (zlen j) i); cbn [andb].
  - destruct (Z.leb_spec 0 (i - (zlen j + 1))); [|lia]. cbn [andb]. rewrite nth_error_app2 by (unfold zlen in *; lia).
    replace (Z.to_nat i - length j)%nat with (S (Z.to_nat (i - (zlen j + 1)))) by (unfold zlen in *; lia). reflexivity.
  - destruct (Z.leb_spec 0 (i - (zlen j + 1))); [lia | reflexivity].
Qed.
Lemma xmlns_hit j b t : xmlns_tag j (j ++ b :: t) = starts (lit "xmlns") (j ++ b :: t) && hit (zlen j + 1) t.
Proof. unfold xmlns_tag. rewrite hit_is, !colon_at_in. reflexivity. Qed.

Section Start.
Variable cf : cfg.
Variable fin : nat -> M unit.
Notation doc := (c_doc cf).
Hypothesis HE : c_end cf = zlen doc.
Hypothesis HD : zlen doc < 2^31.
Hypothesis HN : c_ns cf = true.
Hypothesis Hap : forall i, znth doc i = Some x26 -> znth doc (i + 1) = Some x61 -> znth doc (i + 2) = Some x70 -> znth doc (i + 3) = Some x3b -> False.
Hypothesis Haos : forall i, znth doc i = Some x26 -> znth doc (i + 1) = Some x61 -> znth doc (i + 2) = Some x6f -> znth doc (i + 3) = Some x73 ->
  znth doc (i + 4) = Some x3b -> False.
Local Notation At := (DocScan.At cf).
Local Notation Rep := (NsBase.Rep cf).
Local Notation Base V := (@DocBase.Base cf V).
Local Notation Tagged V := (@DocBase.Tagged cf V).
Local Notation Quiet V := (@DocBase.Quiet cf V).
Local Notation at_end := (DocGap.at_end cf HD).
Local Notation parseErr_not := (DocScan.parseErr_not cf).
Local Notation andThen := (DocBase.andThen cf fin).
Local Notation loop := (DocBase.loop cf fin).
Local Notation becomes := (DocTag.becomes cf fin).
Local Notation recOk := (NsTag.recOk cf).

(** ** The name of the tag *)
Lemma nameLoop_ns t : forall n s c l N cN rN, s_rascii s = false -> s_inc s = 1 -> s_enc s = 0 -> Forall name_char t -> ~ name_char c ->
  At (s_roff s) (t ++ c :: l) -> (length t < n)%nat -> At (s_last s) (N ++ cN :: rN) -> ~ name_char cN ->
  if starts (lit "xmlns") N && hit (s_roff s - s_last s) t then never (startTagNameLoop cf n s)
  else startTagNameLoop cf n s = ROk tt (set_len2 (last_colon (s_roff s - s_last s) (s_len2 s) t) (adv (s_roff s + zlen t + 1) (b2z c) s)).
Proof.
  induction t as [|b t IH]; intros n s c l N cN rN Hr Hi He Ht Hc H Hn HL HcN; (destruct n as [|n]; [cbn in Hn; lia|]); cbn [startTagNameLoop hit].
  - rewrite andb_false_r. eapply (ok_nextChar cf HE); [exact Hr | exact H|]. intros _. bs. apply not_name_byte in Hc. rewrite Hc. zlnil. rewrite Z.add_0_r. reflexivity.
  - inversion Ht as [|? ? Hb Ht']; subst. cbn [app] in H.
    assert (EQ : forall X, bind (if Byte.eqb b x3a then modify (set_len2 (s_roff s - s_last s)) ;;;
        (x <- checkXmlnsPrefix cf (s_last s) (s_roff s - s_last s) true ;; if x then parseErr cf "XMLNS cannot be element prefix" else ret tt) else ret tt)
        (fun _ => startTagNameLoop cf n) (adv (s_roff s + 1) (b2z b) s) = X ->
      bind (nextChar cf) (fun _ => c <- get s_cur ;; if isNameChar c then
        (if c =? CH_COLON then s <- get (fun s => s) ;; modify (set_len2 (s_off s - s_last s - s_inc s)) ;;;
           (if c_ns cf then x <- checkXmlnsPrefix cf (s_last s) (s_off s - s_last s - s_inc s) true ;;
              if x then parseErr cf "XMLNS cannot be element prefix" else ret tt else ret tt) else ret tt) ;;; startTagNameLoop cf n else ret tt) s = X).
    { intros X K. eapply (ok_nextChar cf HE); [exact Hr | exact H|]. intros _. bs. apply isName_byte in Hb. rewrite Hb.
      assert (Ec : (b2z b =? CH_COLON) = Byte.eqb b x3a) by (change CH_COLON with (b2z x3a); apply b2z_eqb). rewrite Ec. clear Ec. rewrite HN.
      destruct (Byte.eqb b x3a); [|exact K]. bs. rewrite Hi. replace (s_roff s + 1 - s_last s - 1) with (s_roff s - s_last s) by lia. rewrite bind_assoc, bind_modify, bind_assoc in K. exact K. }
    pose proof (At_cons cf _ _ _ H) as (_ & _ & H1). cbn [last_colon]. rewrite zlen_cons. replace (s_roff s + (zlen t + 1) + 1) with (s_roff s + 1 + zlen t + 1) by lia.
    set (s1 := adv (s_roff s + 1) (b2z b) s) in *.
    destruct (Byte.eqb b x3a); cbn [andb orb].
    + set (s2 := set_len2 (s_roff s - s_last s) s1).
      pose proof (checkXmlns_ok cf N (s_last s) cN rN (s_roff s - s_last s) true s2 He HL HcN) as X. cbn [negb orb] in X.
      specialize (IH n s2 c l N cN rN Hr Hi He Ht' Hc H1 ltac:(cbn in Hn; lia) HL HcN). change (s_roff s2) with (s_roff s + 1) in IH. change (s_last s2) with (s_last s) in IH.
      change (s_len2 s2) with (s_roff s - s_last s) in IH. replace (s_roff s + 1 - s_last s) with (s_roff s - s_last s + 1) in IH by lia.
      destruct (starts (lit "xmlns") N) eqn:Es; cbn [andb] in *.
      * destruct ((s_roff s - s_last s =? 5) || (s_roff s - s_last s =? 10)); cbn [orb] in *.
        { intros a s' K. rewrite (EQ _ eq_refl) in K. revert K. rewrite bind_assoc, bind_modify. eapply never_bind. eapply never_then; [exact X|]. intros a' s'' K. exact (parseErr_not _ _ _ _ K). }
        assert (EQ2 : forall Y, startTagNameLoop cf n s2 = Y -> bind (nextChar cf) _ s = Y) by (intros Y K; apply EQ; rewrite bind_assoc, bind_modify; eapply bind_eq; [eapply bind_eq; [exact X | reflexivity]|]; exact K).
        destruct (hit (s_roff s - s_last s + 1) t); [intros a s' K; rewrite (EQ2 _ eq_refl) in K; exact (IH _ _ K)|]. apply EQ2. rewrite IH. reflexivity.
      * apply EQ. rewrite bind_assoc, bind_modify. eapply bind_eq; [eapply bind_eq; [exact X | reflexivity]|]. exact IH.
    + specialize (IH n s1 c l N cN rN Hr Hi He Ht' Hc H1 ltac:(cbn in Hn; lia) HL HcN). change (s_roff s1) with (s_roff s + 1) in IH. change (s_last s1) with (s_last s) in IH.
      change (s_len2 s1) with (s_len2 s) in IH. replace (s_roff s + 1 - s_last s) with (s_roff s - s_last s + 1) in IH by lia.
      destruct (starts (lit "xmlns") N && hit (s_roff s - s_last s + 1) t); [intros a s' K; rewrite (EQ _ eq_refl) in K; exact (IH _ _ K)|]. apply EQ. rewrite bind_ret. exact IH.
Qed.

(** ** The bookkeeping of a start tag *)
Lemma startTagNs_ok k us j n p c r s : Rep k us (nsv s) -> 0 <= s_depth s -> s_last s = p -> s_len1 s = zlen n -> s_len2 s = prefix_from (zlen j + 1) n -> s_inc s = 1 ->
  At p (n ++ c :: r) -> ~ name_char c -> 0 <= prefix_from (zlen j + 1) n <= zlen n -> name_fits (zlen j + 1) n ->
  match enter (s_depth s) k with
  | Fine k' => exists V' l2, startTagNs cf s = ROk tt (set_len2 l2 (nsPut V' s)) /\ Rep k' us V' /\ recOk j n (@v_rec V')
  | Refused => False
  | Beyond => True
  end.
Proof.
  intros R Hd Hl H1 H2 Hi H Hc HP (F1 & F2). unfold max_name, max_prefix in *. unfold startTagNs. rewrite HN, bind_get. cbv beta zeta. set (pf := prefix_from (zlen j + 1) n) in *.
  assert (E1 : exists rc l2, recOk j n rc /\ forall X, (s <- get (fun s => s) ;;
    if s_depth s <=? b_size (s_ns1 s) - 1 then
      modify (set_ns1 (setSize (s_ns1 s) (s_depth s))) ;;;
      s <- get (fun s => s) ;;
      t <- lift (intAt (s_ns1 s) (s_depth s - 1)) ;;
      modify (set_ns2 (setSize (s_ns2 s) (wrap32 (t + 1)))) ;;;
      modify (set_ns3 (setSize (s_ns3 s) (wrap32 (t + 1))))
    else ret tt) (set_len2 l2 (set_rec rc s)) = X -> bind (if s_len2 s =? 0 then modify (set_rec 0)
     else
       modify (set_len2 (s_len2 s + s_inc s)) ;;;
       modify (set_rec (Z.lor (shl64 (Z.lor (shl64 (s_len2 s + s_inc s) 16) (s_len1 s)) 32) (s_last s)))) (fun _ => s <- get (fun s => s) ;;
    if s_depth s <=? b_size (s_ns1 s) - 1 then
      modify (set_ns1 (setSize (s_ns1 s) (s_depth s))) ;;;
      s <- get (fun s => s) ;;
      t <- lift (intAt (s_ns1 s) (s_depth s - 1)) ;;
      modify (set_ns2 (setSize (s_ns2 s) (wrap32 (t + 1)))) ;;;
      modify (set_ns3 (setSize (s_ns3 s) (wrap32 (t + 1))))
    else ret tt) s = X).
  { destruct (Z.eqb_spec (s_len2 s) 0) as [E0|E0].
    - exists 0, (s_len2 s). split; [|intros X K; exact K]. exists p, c, r. unfold has_prefix. fold pf. rewrite H2 in E0. split; [exact H|]. split; [exact Hc|]. split; [exact HP|]. split; [lia|]. split; [lia|]. rewrite E0. reflexivity.
    - exists (declWord (pf + 1) (zlen n) p), (pf + 1). split.
      + exists p, c, r. unfold has_prefix. fold pf. split; [exact H|]. split; [exact Hc|]. split; [exact HP|]. split; [lia|]. split; [lia|]. destruct (Z.eqb_spec pf 0); [lia|]. reflexivity.
      + intros X K. rewrite bind_assoc, bind_modify, bind_modify. change (s_len2 s) with (s_len2 s). change (s_inc s) with (s_inc s). change (s_len1 s) with (s_len1 s). change (s_last s) with (s_last s).
        rewrite H2, Hi, H1, Hl. exact K. }
  destruct E1 as (rc & l2 & HR & E1). set (s1 := set_len2 l2 (set_rec rc s)) in *.
  destruct R as [(L1 & L2 & L3) R2 (R3 & R3') R4 (log2 & E2 & Z2 & P2) (log3 & E3 & F3) R7 R8 R9]. cbn in R4, E2, E3.
  assert (Sz : b_size (s_ns1 s) = g_level k).
  { rewrite R4. apply nbuf_size. intros K. apply map_eq_nil in K. rewrite K in L2. change (zlen (@nil Z)) with 0 in L2. lia. }
  assert (EB : (s_depth s1 <=? b_size (s_ns1 s1) - 1) = negb (g_level k <=? s_depth s)).
  { change (s_ns1 s1) with (s_ns1 s). change (s_depth s1) with (s_depth s). rewrite Sz. lia. }
  unfold enter. destruct (Z.leb_spec (g_level k) (s_depth s)) as [Hle|Hgt]; cbn [negb] in EB.
  - exists (nsv s1), l2. split; [|split; [|exact HR]].
    + apply E1. rewrite bind_get. cbv beta. rewrite EB. reflexivity.
    + constructor; try assumption; [repeat split; lia | lia | exists log2; auto | exists log3; auto].
  - destruct (znth (g_tags k) (s_depth s - 1)) as [c0|] eqn:Ec; [|exact I]. pose proof (znth_range _ _ _ Ec) as Rc.
    assert (Hc0 : 0 <= c0 <= 64 /\ c0 <= zlen (g_decls k)) by (rewrite Forall_forall in R2; apply R2; eapply znth_In; exact Ec).
    exists (NsView (nbuf (map (fun c => c - 1) (g_tags k)) (s_depth s)) (nbuf log2 c0) (nbuf log3 c0) rc (s_prefNames s) (s_prefCount s) (s_prefUrls s)), l2.
    split; [|split; [|exact HR]].
    + apply E1. rewrite bind_get. cbv beta. rewrite EB. rewrite bind_modify, bind_get. cbv beta.
      set (s2 := set_ns1 _ _). change (s_ns1 s2) with (setSize (s_ns1 s) (s_depth s)). change (s_depth s2) with (s_depth s). change (s_ns2 s2) with (s_ns2 s). change (s_ns3 s2) with (s_ns3 s).
      assert (ET : map (fun c => c - 1) (g_tags k) <> []) by (intros K; apply map_eq_nil in K; rewrite K in Rc; change (zlen (@nil Z)) with 0 in Rc; lia).
      assert (EI : lift (intAt (setSize (s_ns1 s) (s_depth s)) (s_depth s - 1)) s2 = ROk (c0 - 1) s2).
      { unfold lift, intAt. rewrite R4, nbuf_set by exact ET. rewrite (nbuf_at _ _ (s_depth s) (s_depth s - 1) (c0 - 1)); [reflexivity | lia | lia|].
        rewrite znth_map, Ec. reflexivity. }
      eapply bind_eq; [exact EI|]. cbv beta. rewrite wrap32_id by lia. replace (c0 - 1 + 1) with c0 by lia. rewrite bind_modify.
      unfold modify. subst s2. unfold s1. 
      assert (X1 : setSize (s_ns1 s) (s_depth s) = nbuf (map (fun c => c - 1) (g_tags k)) (s_depth s)) by (rewrite R4; apply nbuf_set, ET).
      assert (X2 : setSize (s_ns2 s) c0 = nbuf log2 c0).
      { rewrite E2. apply nbuf_resize. intros K. rewrite K in Z2. change (zlen (@nil Z)) with 0 in Z2. lia. }
      assert (X3 : setSize (s_ns3 s) c0 = nbuf log3 c0).
      { rewrite E3. apply nbuf_resize. intros K. rewrite K in F3. destruct (g_decls k); [|inversion F3]. change (zlen (@nil (list byte))) with 0 in Hc0. lia. }
      rewrite <- X1, <- X2, <- X3. reflexivity.
    + constructor; cbn [g_tags g_level g_decls g_in v_ns1 v_ns2 v_ns3 v_rec v_prefNames v_prefCount v_prefUrls]; try assumption; [repeat split; lia | reflexivity | exists log2; auto | exists log3; auto].
Qed.

Lemma startName_ns V k j st ts s p b t c r : Quiet V st ts s -> Rep k [] V -> At p ((j ++ b :: t) ++ c :: r) -> Forall name_char t -> ~ name_char c ->
  name_fits (zlen j + 1) (j ++ b :: t) -> zlen st <= max_depth ->
  if xmlns_tag j (j ++ b :: t) then never (processStartTag cf (tagState j p b s))
  else match enter (zlen st) k with
  | Fine k' => exists s1 V', processStartTag cf (tagState j p b s) = rest cf (startL cf) (startTagClose cf) s1 /\
      Tagged V' [] ((j ++ b :: t) :: st) (ts ++ [startTok j p st (j ++ b :: t)]) s1 /\ Pos (p + zlen (j ++ b :: t) + 1) s1 /\ s_cur s1 = b2z c /\
      Rep k' [] V' /\ recOk j (j ++ b :: t) (@v_rec V')
  | Refused => False
  | Beyond => True
  end.
Proof.
  intros Q R H Ht Hc (F1 & F2) Hd. pose proof Q as (B & D & Tg & L2 & NS & AC & NM). pose proof B as (B1 & B2 & B3 & B4 & B5 & B6 & B7 & B8 & B9).
  assert (EV : V = nsv s) by (symmetry; apply (tagged_nsv cf _ _ _ _ _ Q)).
  assert (Ep : prefix_from (zlen j + 1) (j ++ b :: t) = last_colon (zlen j + 1) 0 t) by (unfold prefix_from; rewrite (skipn_name cf j b t); reflexivity).
  rewrite xmlns_hit. set (n := j ++ b :: t) in *. pose proof (at_end _ _ _ H) as L. rewrite zlen_cons in L. pose proof (zlen_nonneg r). pose proof (zlen_nonneg j). pose proof (zlen_nonneg st). pose proof (zlen_nonneg t).
  assert (Ln : zlen n = zlen j + 1 + zlen t) by (subst n; rewrite zlen_app, zlen_cons; lia). pose proof (conj F1 F2 : name_fits (zlen j + 1) n) as HF. unfold max_name, max_prefix, max_depth in *.
  assert (Pb : 0 <= prefix_from (zlen j + 1) n <= zlen n) by (rewrite Ep, Ln; apply last_colon_bound; lia).
  assert (HT : At (p + zlen j + 1) (t ++ c :: r)).
  { subst n. rewrite <- app_assoc in H. cbn [app] in H. exact (At_app_cons cf _ _ _ _ H). }
  pose proof (nameLoop_ns t (fuel cf) (tagState j p b s) c r n c r B1 B2 B4 Ht Hc HT (at_fuel_app cf _ _ _ HT) H Hc) as NL.
  change (s_roff (tagState j p b s)) with (p + zlen j + 1) in NL. change (s_last (tagState j p b s)) with p in NL. change (s_len2 (tagState j p b s)) with (s_len2 s) in NL.
  change (s_len2 s) with (s_len2 s) in NL. rewrite L2 in NL. replace (p + zlen j + 1 - p) with (zlen j + 1) in NL by lia.
  destruct (starts (lit "xmlns") n && hit (zlen j + 1) t); [intros x s' K; revert K; unfold processStartTag; apply never_bind; exact NL|]. rewrite <- Ep in NL.
  assert (EQ : exists s1, (forall X, bind (writeStartTag cf) (fun _ => startTagNs cf ;;; modify (set_len2 0) ;;; rest cf (startL cf) (startTagClose cf)) s1 = X -> processStartTag cf (tagState j p b s) = X) /\
     exists v a, zupd (s_tags s) (zlen st) (wrap64 (shl64 (zlen n) 32 + p)) = Some a /\ s1 = set_vtdDepth v (set_tags a (set_len1 (zlen n) (set_depth (zlen st) (set_len2 (prefix_from (zlen j + 1) n) (adv (p + zlen n + 1) (b2z c) (set_last p s))))))).
  { destruct (proj2 (zupd_some_iff (s_tags s) (zlen st) (wrap64 (shl64 (zlen n) 32 + p)))) as (a & Ea); [change (zlen (s_tags s) = 256) in B6; lia|].
    set (s0 := set_tags a (set_len1 (zlen n) (set_depth (zlen st) (set_len2 (prefix_from (zlen j + 1) n) (adv (p + zlen n + 1) (b2z c) (set_last p s)))))).
    exists (if s_vtdDepth s <? zlen st then set_vtdDepth (zlen st) s0 else s0). split.
    - intros X K. unfold processStartTag. eapply bind_eq; [exact NL|]. unfold tagState. run. rewrite B2, D.
      replace (p + zlen j + 1 + zlen t + 1 - p - 1) with (zlen n) by lia. replace (depth st + 1) with (zlen st) by (unfold depth; lia).
      change maxDepth with 254. destruct (Z.ltb_spec 254 (zlen st)); [lia|]. run.
      unfold setTag at 1. eapply bind_eq; [qsimp; rewrite Ea; reflexivity|].
      replace (p + zlen j + 1 + zlen t + 1) with (p + zlen n + 1) by lia. qsimp. change (s_vtdDepth s) with (s_vtdDepth s) in *.
      destruct (s_vtdDepth s <? zlen st); exact K.
    - exists (if s_vtdDepth s <? zlen st then zlen st else s_vtdDepth s), a. split; [exact Ea|]. subst s0. destruct (s_vtdDepth s <? zlen st); reflexivity. }
  destruct EQ as (s1 & EQ & v & a & Ea & Es1).
  destruct (@startWrite_ok cf V ts s1 p (Z.lor (2 * prefix_from (zlen j + 1) n) (zlen n)) (zlen st)) as (v1 & r1 & l1 & i1 & i2 & i3 & i4 & b1 & b2 & b3 & b4 & b5 & E1 & Bk).
  { rewrite Es1. split; [exact B1|]. split; [exact B2|]. split; [exact B3|]. split; [exact B4|]. split; [exact B5|]. split; [|split; [exact B7|split; [exact B8|exact B9]]].
    qsimp. rewrite (zupd_zlen _ _ _ _ Ea). exact B6. }
  { unfold fits. cbn [t_type t_len t_off]. split; [lia|]. split; [left; apply (lor_bound _ _ 20); lia | lia]. }
  set (s2 := DocBase.lcSet s1 v1 r1 l1 i1 i2 i3 i4 b1 b2 b3 b4 b5) in *.
  assert (EW : writeStartTag cf s1 = ROk tt s2).
  { unfold writeStartTag. rewrite bind_get. cbv beta zeta. rewrite Es1 in *. qsimp. change (s_single s) with (s_single s). rewrite B3. change maxPrefixLength with 511. change maxQnameLength with 2047.
    destruct (Z.ltb_spec 511 (prefix_from (zlen j + 1) n)); [lia|]. destruct (Z.ltb_spec 2047 (zlen n)); [lia|]. cbn [orb].
    rewrite shl64_mul by lia. replace (prefix_from (zlen j + 1) n * 2 ^ 1) with (2 * prefix_from (zlen j + 1) n) by lia. exact E1. }
  assert (RS : Rep k [] (nsv s2)) by (rewrite EV in R; subst s2; rewrite Es1; exact R).
  assert (S1 : s_depth s2 = zlen st /\ s_last s2 = p /\ s_len1 s2 = zlen n /\ s_len2 s2 = prefix_from (zlen j + 1) n /\ s_inc s2 = 1) by (subst s2; rewrite Es1; repeat split; exact B2).
  destruct S1 as (S1 & S2 & S3 & S4 & S5).
  pose proof (startTagNs_ok k [] j n p c r s2 RS ltac:(lia) S2 S3 S4 S5 H Hc Pb HF) as SN. rewrite S1 in SN.
  destruct (enter (zlen st) k) as [k'| |]; [|exact SN | exact I]. destruct SN as (V' & l2 & EN & R' & HR).
  exists (set_len2 0 (nsPut V' s2)), V'. split; [apply EQ; eapply bind_eq; [exact EW|]; eapply bind_eq; [exact EN|]; reflexivity|].
  split; [|split; [subst s2; rewrite Es1; split; reflexivity | split; [subst s2; rewrite Es1; reflexivity | split; [exact R' | exact HR]]]].
  change (set_len2 0 (nsPut V' s2)) with (nsPut V' (set_len2 0 s2)). apply (tagged_put cf V).
  split; [unfold startTok; replace (depth st + 1) with (zlen st) by (unfold depth; lia); exact Bk|].
  subst s2. rewrite Es1. split; [change (zlen st = depth (n :: st)); unfold depth; rewrite zlen_cons; lia|].
  split; [|split; [reflexivity|]; split; [exact NS|]; split; [exact AC | exact NM]].
  intros i m Hm. change (exists e, znth a (Z.of_nat i) = Some e /\ DocBase.tagEntry cf e m). cbn [rev] in Hm.
  destruct (Nat.lt_ge_cases i (length (rev st))) as [Hi|Hi].
  - rewrite nth_error_app1 in Hm by exact Hi. destruct (Tg i m Hm) as (e & He & HA). exists e. split; [|exact HA].
    rewrite (zupd_other _ _ _ _ _ Ea); [exact He|]. rewrite rev_length in Hi. unfold zlen. lia.
  - rewrite nth_error_app2 in Hm by exact Hi. destruct (i - length (rev st))%nat as [|x] eqn:Ei; cbn in Hm; [|destruct x; discriminate Hm]. injection Hm as <-.
    rewrite rev_length in *. assert (Z.of_nat i = zlen st) as -> by (unfold zlen; lia). eexists. split; [exact (zupd_same _ _ _ _ Ea)|].
    exists p, (c :: r). split; [|exact H]. pose proof (zlen_nonneg n) as Zn. rewrite shl64_mul by lia. apply wrap64_id. lia.
Qed.

(** ** The end of the tag *)
Lemma phase_ns L C names V n st ts s q b l e r j k : phase cf L C names -> Tagged V names (n :: st) ts s -> Pos (q + 1) s -> s_cur s = b2z b ->
  At q (b :: l) -> b :: l = close e ++ r -> Rep k (filter prefixed names) V -> recOk j n (@v_rec V) ->
  match leave j n (filter prefixed names) k with
  | Fine k' => exists s1 V', C s = processElementTail cf s1 /\ Quiet V' (if e then st else n :: st) ts s1 /\ Pos (q + zlen (close e)) s1 /\ s_helper s1 = negb e /\ Rep k' [] V'
  | Refused => never (C s)
  | Beyond => True
  end.
Proof.
  intros HP T [Po Pr] Hc H E R HR. pose proof T as (B & D & Tg & L2 & NS & AC & NM). pose proof B as (B1 & B2 & B3 & B4 & _).
  assert (EV : V = nsv s) by (symmetry; apply (tagged_nsv cf _ _ _ _ _ T)).
  apply (At_cons cf) in H. destruct H as (_ & _ & H).
  assert (Hd : s_depth s - 1 = depth st) by (rewrite D; unfold depth; rewrite zlen_cons; lia).
  assert (EQ : exists s0, ((names = [] /\ forall X, bind (nsStart cf) (fun _ => processElementTail cf) s0 = X -> C s = X) \/
      (forall X, bind (nsEnd cf) (fun _ => modify (set_attrCount 0) ;;; processElementTail cf) s0 = X -> C s = X)) /\
     Tagged V names (if e then st else n :: st) ts s0 /\ Pos (q + zlen (close e)) s0 /\ s_helper s0 = negb e /\ nsv s0 = nsv s /\ plain s0).
  { destruct e; cbn [close] in *; lits_in E; change (zlen (lit "/>")) with 2; change (zlen (lit ">")) with 1.
    - injection E as -> ->. destruct HP as [|names].
      + eexists. split; [left; split; [reflexivity|]; intros X K; unfold startTagClose; run; rewrite Hc; change (b2z x2f =? 47) with true; cbv iota; run;
          eapply (ok_getChar cf HE _ x3e r); [exact (base_ascii cf _ _ B) | qsimp; rewrite Pr; exact H|]; intros _; run; change (b2z x3e =? 62) with true; cbv iota; rewrite HN; exact K|].
        split; [|split; [split; qsimp; lia | split; [reflexivity | split; [reflexivity | split; [exact B4 | exact B2]]]]].
        split; [exact B|]. split; [qsimp; exact Hd|]. split; [exact (tags_pop cf _ _ _ Tg)|]. split; [exact L2|]. split; [exact NS|]. split; [exact AC|exact NM].
      + eexists. split; [right; intros X K; unfold attrValClose; run; rewrite Hc; change (b2z x2f =? 47) with true; cbv iota; run;
          eapply (ok_nextChar cf HE _ x3e r); [exact (base_ascii cf _ _ B) | qsimp; rewrite Pr; exact H|]; intros _; run; change (b2z x3e =? 62) with true; cbv iota; rewrite HN; exact K|].
        split; [|split; [split; qsimp; lia | split; [reflexivity | split; [reflexivity | split; [exact B4 | exact B2]]]]].
        split; [exact B|]. split; [qsimp; exact Hd|]. split; [exact (tags_pop cf _ _ _ Tg)|]. split; [exact L2|]. split; [exact NS|]. split; [exact AC|exact NM].
    - injection E as -> ->. destruct HP as [|names].
      + exists (set_helper true s). split; [left; split; [reflexivity|]; intros X K; unfold startTagClose; run; rewrite Hc; change (b2z x3e =? 47) with false; change (b2z x3e =? 62) with true; cbv iota; run;
          rewrite Hc; change (b2z x3e =? 62) with true; cbv iota; rewrite HN; exact K|].
        split; [exact T|]. split; [split; qsimp; lia|]. split; [reflexivity|]. split; [reflexivity|]. split; [exact B4 | exact B2].
      + exists (set_helper true s). split; [right; intros X K; unfold attrValClose; run; rewrite Hc; change (b2z x3e =? 47) with false; change (b2z x3e =? 62) with true; cbv iota; run;
          rewrite Hc; change (b2z x3e =? 62) with true; cbv iota; rewrite HN; exact K|].
        split; [exact T|]. split; [split; qsimp; lia|]. split; [reflexivity|]. split; [reflexivity|]. split; [exact B4 | exact B2]. }
  destruct EQ as (s0 & EQ & T0 & P0 & H0 & V0 & PL). rewrite EV in R, HR. rewrite <- V0 in R.
  assert (HR' : recOk j n (s_rec s0)) by (assert (X : s_rec s0 = s_rec s) by exact (f_equal (@v_rec) V0); rewrite X; exact HR).
  clear B D Tg L2 NS AC NM T. destruct EQ as [(-> & EQ)|EQ].
  - pose proof (nsStart_ok cf HD Hap Haos j n k s0 R HR' (proj2 PL) (proj1 PL)) as N. cbn [filter] in *. destruct (leave j n [] k) as [k'| |]; [|intros x s' K; rewrite (EQ _ eq_refl) in K; revert K; apply never_bind; exact N | exact I].
    destruct N as (V' & EN & R'). exists (nsPut V' s0), V'. split; [apply EQ; eapply bind_eq; [exact EN | reflexivity]|].
    split; [exact (tagged_put cf _ _ _ _ _ _ T0)|]. split; [exact P0|]. split; [exact H0 | exact R'].
  - pose proof (nsEnd_ok cf fin HD Hap Haos j n k (filter prefixed names) s0 R HR' PL) as N. destruct (leave j n (filter prefixed names) k) as [k'| |]; [|intros x s' K; rewrite (EQ _ eq_refl) in K; revert K; apply never_bind; exact N | exact I].
    destruct N as (V' & EN & R'). exists (set_attrCount 0 (nsPut V' s0)), V'. split; [apply EQ; eapply bind_eq; [exact EN | reflexivity]|].
    split; [|split; [exact P0|split; [exact H0 | exact R']]].
    pose proof (tagged_put cf _ V' _ _ _ _ T0) as (X1 & X2 & X3 & X4 & X5 & X6 & X7).
    split; [exact X1|]. split; [exact X2|]. split; [exact X3|]. split; [exact X4|]. split; [exact X5|]. split; [reflexivity|]. intros [|i] nm K; discriminate K.
Qed.
Lemma rest_close_ns L C names V n st ts s q w e r c0 l0 j k : phase cf L C names -> Tagged V names (n :: st) ts s -> Pos (q + 1) s -> s_cur s = b2z c0 ->
  At q (c0 :: l0) -> c0 :: l0 = w ++ close e ++ r -> blank w = true -> Rep k (filter prefixed names) V -> recOk j n (@v_rec V) ->
  match leave j n (filter prefixed names) k with
  | Fine k' => exists s1 V', rest cf L C s = processElementTail cf s1 /\ Quiet V' (if e then st else n :: st) ts s1 /\ Pos (q + zlen w + zlen (close e)) s1 /\ s_helper s1 = negb e /\ Rep k' [] V'
  | Refused => never (rest cf L C s)
  | Beyond => True
  end.
Proof.
  intros HP T P Hc H E Hw R HR. 
  destruct (close_head e r) as (b & t & Eb & Hb1 & Hb2). destruct w as [|c w]; cbn [app] in E.
  - assert (EQ : rest cf L C s = C s).
    { unfold rest. run. rewrite Hc, isSpace_byte. rewrite Eb in E. injection E as -> ->. rewrite Hb1. reflexivity. }
    rewrite EQ. rewrite zl0, Z.add_0_r. eapply phase_ns; eassumption.
  - injection E as -> ->. cbn in Hw. apply andb_true_iff in Hw. destruct Hw as [Hc0 Hw]. pose proof P as [Po Pr].
    pose proof H as H1. apply (At_cons cf) in H1. destruct H1 as (_ & _ & H1). rewrite Eb in H1.
    assert (EQ : rest cf L C s = C (adv (q + zlen (c :: w) + 1) (b2z b) s)).
    { unfold rest. run. rewrite Hc, isSpace_byte, Hc0. eapply (ok_nextWs cf HE) with (w := w) (b := b) (l := t); [exact (base_ascii cf _ _ (proj1 T)) | rewrite Pr; exact H1 | exact Hw | exact Hb1 |].
      intros _. run. rewrite Hb2. rewrite Pr, zlen_cons. f_equal. f_equal. lia. }
    rewrite EQ. apply (phase_ns L C names V n st ts (adv (q + zlen (c :: w) + 1) (b2z b) s) (q + zlen (c :: w)) b t e r j k);
      [exact HP | exact T | split; reflexivity | reflexivity | | symmetry; exact Eb | exact R | exact HR].
    apply (At_app cf q (c :: w)). cbn [app]. rewrite <- Eb. exact H.
Qed.

(** ** All attributes *)
Lemma bad_refused k a : bad_name k (a_name a) = true -> forall k', declare k a <> Fine k'.
Proof.
  unfold bad_name, declaring, declare, reserved, stale. intros H k' K. apply andb_true_iff in H. destruct H as [H1 H2]. apply andb_true_iff in H1. destruct H1 as [H0 H1]. rewrite H0 in K.
  destruct (is_default (a_name a)); [discriminate H1|].
  assert (X : forall c : answer, (match a_value a with x26 :: _ => Beyond | _ => c end) = Fine k' -> c = Fine k') by (intros c; destruct (a_value a) as [|b v]; [auto|]; destruct b; auto; discriminate).
  apply X in K. clear X. destruct (same (local_of (a_name a)) (lit "xmlns")); [discriminate K|].
  cbn [orb] in H2. apply andb_true_iff in H2. destruct H2 as [H2 H3]. destruct (same (local_of (a_name a)) (lit "xml")); [discriminate H2|]. cbn [orb] in K. rewrite H3 in K. discriminate K.
Qed.
Lemma room k a : bad_name k (a_name a) = false -> declare k a <> Beyond -> declaring (a_name a) && negb (same (local_of (a_name a)) (lit "xml")) = true -> g_in k < 64.
Proof.
  unfold bad_name, declaring, declare, reserved, stale. intros H K D. apply andb_true_iff in D. destruct D as [D1 D2]. rewrite D1 in H. apply andb_true_iff in D1. destruct D1 as [D1 D3]. rewrite D1 in K.
  destruct (is_default (a_name a)); [discriminate D3|].
  destruct (same (local_of (a_name a)) (lit "xml")); [discriminate D2|]. destruct (same (local_of (a_name a)) (lit "xmlns")); [discriminate H|]. cbn [orb andb negb] in H, K. rewrite H in K.
  destruct (Z.leb_spec page (g_in k)) as [L|L]; [|exact L]. exfalso. apply K. destruct (a_value a) as [|b v]; [reflexivity|]. destruct b; reflexivity.
Qed.
Definition failing (F : M pstate) (s : pst) : Prop := forall n sf, andThen n F s <> ROk tt sf.
Lemma never_failing F s : never (F s) -> failing F s.
Proof. intros H n sf K. destruct (DocBase.andThen_inv _ _ _ _ _ _ K) as (ps & s' & E & _). exact (H _ _ E). Qed.
Definition lost (ps : pstate) (s : pst) : Prop := forall n sf, loop n ps s <> ROk tt sf.
Lemma never_lost ps s : ps <> StDocEnd -> never (step cf ps s) -> lost ps s.
Proof. intros N H n sf K. destruct (DocBase.loop_inv _ _ _ _ _ _ N K) as (n' & ps' & s' & _ & E & _). exact (H _ _ E). Qed.
Lemma lost_next ps s ps' s' : ps <> StDocEnd -> step cf ps s = ROk ps' s' -> lost ps' s' -> lost ps s.
Proof. intros N E H n sf K. destruct (DocBase.loop_inv _ _ _ _ _ _ N K) as (n' & ps1 & s1 & _ & E1 & K1). rewrite E in E1. injection E1 as <- <-. exact (H _ _ K1). Qed.
Lemma lost_then ps s F s' : ps <> StDocEnd -> step cf ps s = F s' -> failing F s' -> lost ps s.
Proof.
  intros N E H n sf K. destruct (DocBase.loop_inv _ _ _ _ _ _ N K) as (n' & ps1 & s1 & _ & E1 & K1). apply (H n' sf). unfold DocBase.andThen. rewrite <- E, E1. exact K1.
Qed.
Lemma failing_next F s ps s' : F s = ROk ps s' -> lost ps s' -> failing F s.
Proof. intros E H n sf. rewrite (DocBase.andThen_ok _ _ _ _ _ _ _ E). apply H. Qed.

Lemma attrs_ns j atts : forall L C names V k n st ts s q tl e r c l, phase cf L C names -> Tagged V names (n :: st) ts s -> Pos (q + 1) s -> s_cur s = b2z c ->
  At q (c :: l) -> c :: l = render_attrs atts ++ tl ++ close e ++ r -> Forall wf_attr atts -> NoDup (names ++ map a_name atts) ->
  zlen names + zlen atts <= max_attrs -> blank tl = true -> Rep k (filter prefixed names) V -> recOk j n (@v_rec V) ->
  match also (declare_all k atts) (leave j n (filter prefixed (names ++ map a_name atts))) with
  | Fine k' => exists s1 V', becomes (rest cf L C) s (processElementTail cf) s1 /\ Quiet V' (if e then st else n :: st) (ts ++ attrs_toks q (depth (n :: st)) atts) s1 /\
      Pos (q + zlen (render_attrs atts ++ tl ++ close e)) s1 /\ s_helper s1 = negb e /\ Rep k' [] V'
  | Refused => failing (rest cf L C) s
  | Beyond => True
  end.
Proof.
  induction atts as [|a atts IH]; intros L C names V k n st ts s q tl e r c l HP T P Hc H E Hw Hd Hn Ht RP HR.
  - cbn [declare_all also map]. rewrite app_nil_r. pose proof (rest_close_ns L C names V n st ts s q tl e r c l j k HP T P Hc H E Ht RP HR) as X.
    destruct (leave j n (filter prefixed names) k) as [k'| |]; [|apply never_failing; exact X | exact I]. destruct X as (s1 & V' & E1 & Q1 & P1 & H1 & R1).
    exists s1, V'. split; [apply (DocTag.becomes_eq cf fin), E1|]. cbn [attrs_toks render_attrs map concat app]. rewrite app_nil_r, zlen_app, Z.add_assoc. auto.
  - inversion Hw as [|? ? Ha Hw']. subst. destruct (wf_attr_parts a Ha) as (b & t & En & Hb & Fn).
    destruct Ha as (A1 & A2 & A3 & A4 & A5 & A6 & A7 & A8 & A9). 
    assert (EA : a = Attr (a_ws a) (a_name a) (a_eq1 a) (a_eq2 a) (a_quote a) (a_value a)) by (destruct a; reflexivity).
    set (ws := a_ws a) in *. set (nm := a_name a) in *. set (e1 := a_eq1 a) in *. set (e2 := a_eq2 a) in *. set (qq := a_quote a) in *. set (x := a_value a) in *.
    cbn [render_attrs map concat] in E. unfold render_attr in E at 1. fold ws nm e1 e2 qq x in E. fold (render_attrs atts) in E.
    repeat rewrite <- app_assoc in E. cbn [app] in E.
    set (R := render_attrs atts ++ tl ++ close e ++ r) in *.
    assert (exists c' l', R = c' :: l') as (c' & l' & ER).
    { subst R. destruct (close_head e r) as (b' & t' & Eb & _). rewrite Eb. destruct (render_attrs atts); [|eexists _, _; reflexivity]. destruct tl; eexists _, _; reflexivity. }
    pose proof E as E'. rewrite En in E'. cbn [app] in E'.
    pose proof (rest_attr cf HE L C names n st ts s q ws b _ c l HP T P Hc H E' A1 A2 Hb) as E1. set (s1 := set_last _ _) in E1.
    rewrite E in H. pose proof (At_app cf _ _ _ H) as H1. cbn [map] in Hd. fold nm in Hd.
    assert (Hin : ~ In nm names) by (apply NoDup_remove_2 in Hd; intros K; apply Hd, in_or_app; auto).
    unfold max_attrs in *. rewrite zlen_cons in Hn. pose proof (zlen_nonneg atts).
    cbn [declare_all map]. fold nm.
    pose proof (attrName_ns cf fin HE HD HN Hap Haos V k names (n :: st) ts s1 (q + zlen ws) nm b t e1 e2 qq (x ++ qq :: R) T RP eq_refl (conj eq_refl eq_refl) eq_refl En Fn H1 A4 Hin ltac:(lia) A5 A6 A7) as AN.
    pose proof (bad_refused k a) as BR. pose proof (room k a) as RM. fold nm in BR, RM.
    destruct (bad_name k nm) eqn:Ebad.
    { specialize (BR eq_refl). destruct (declare k a) as [kk| |]; [exfalso; exact (BR kk eq_refl)| |exact I]. cbn [also]. eapply failing_next; [exact E1|]. apply never_lost; [discriminate|]. exact AN. }
    destruct (declare k a) as [k1| |] eqn:Ed; [| |exact I].
    + specialize (AN (RM eq_refl ltac:(discriminate))). destruct AN as (s2 & V2 & E2 & T2 & N2 & VR & X2 & X3 & X4 & P2 & L2 & C2).
      set (pv := q + zlen ws + zlen nm + zlen e1 + 1 + zlen e2 + 1) in *.
      assert (H2 : At pv (x ++ qq :: c' :: l')).
      { rewrite <- ER. subst pv. apply (At_app cf) in H1. apply (At_app_cons cf) in H1. apply (At_app_cons cf) in H1. exact H1. }
      pose proof (attrVal_ns cf HE HD HN Hap Haos V2 k names _ (n :: st) _ s2 pv qq a c' l' T2 N2 X2 X3 X4 P2 L2 C2 A7 A8 A9 H2 Ebad) as AV. rewrite Ed in AV. fold x in AV. fold nm in AV.
      destruct AV as (s3 & V3 & E3 & T3 & P3 & C3 & R3 & VR3).
      pose proof (At_app_cons cf _ _ _ _ H2) as H3. cbn [also].
      pose proof (IH valL (attrValClose cf) (names ++ [nm]) V3 k1 n st _ s3 (pv + zlen x + 1) tl e r c' l' ltac:(constructor) T3 P3 C3 H3 (eq_sym ER) Hw' ltac:(rewrite <- app_assoc; exact Hd)
        ltac:(rewrite zlen_app; change (zlen [nm]) with 1; lia) Ht R3 ltac:(rewrite VR3, VR; exact HR)) as G. rewrite <- app_assoc in G. cbn [app] in G.
      destruct (also (declare_all k1 atts) (leave j n (filter prefixed (names ++ nm :: map a_name atts)))) as [k'| |].
      2: { eapply failing_next; [exact E1|]. eapply lost_next; [discriminate | exact E2|]. eapply lost_then; [discriminate | exact E3 | exact G]. }
      2: exact I.
      destruct G as (s4 & V4 & B4 & Q4 & P4 & F4 & R4).
      exists s4, V4. split; [|split; [|split; [|split; [exact F4 | exact R4]]]].
      * eapply (DocTag.becomes_next cf fin); [exact E1|]. eapply (DocBase.goes_next cf fin); [discriminate | exact E2|]. eapply (DocTag.goes_becomes cf fin); [discriminate | exact E3 | exact B4].
      * revert Q4. cbn [attrs_toks]. unfold attr_toks. fold ws nm e1 e2 qq x. rewrite <- !app_assoc. cbn [app].
        fold pv. intros Q4. replace (q + zlen (render_attr a)) with (pv + zlen x + 1); [exact Q4|].
        unfold render_attr. fold ws nm e1 e2 qq x. rewrite !zlen_app. change (zlen [x3d]) with 1. change (zlen [qq]) with 1. subst pv. lia.
      * cbn [render_attrs map concat]. fold (render_attrs atts). rewrite <- app_assoc, zlen_app.
        replace (q + (zlen (render_attr a) + zlen (render_attrs atts ++ tl ++ close e))) with (pv + zlen x + 1 + zlen (render_attrs atts ++ tl ++ close e)); [exact P4|].
        unfold render_attr. fold ws nm e1 e2 qq x. rewrite !zlen_app. change (zlen [x3d]) with 1. change (zlen [qq]) with 1. subst pv. lia.
    + specialize (AN (RM eq_refl ltac:(discriminate))). destruct AN as (s2 & V2 & E2 & T2 & N2 & VR & X2 & X3 & X4 & P2 & L2 & C2).
      set (pv := q + zlen ws + zlen nm + zlen e1 + 1 + zlen e2 + 1) in *.
      assert (H2 : At pv (x ++ qq :: c' :: l')).
      { rewrite <- ER. subst pv. apply (At_app cf) in H1. apply (At_app_cons cf) in H1. apply (At_app_cons cf) in H1. exact H1. }
      pose proof (attrVal_ns cf HE HD HN Hap Haos V2 k names _ (n :: st) _ s2 pv qq a c' l' T2 N2 X2 X3 X4 P2 L2 C2 A7 A8 A9 H2 Ebad) as AV. rewrite Ed in AV. cbn [also].
      eapply failing_next; [exact E1|]. eapply lost_next; [discriminate | exact E2|]. apply never_lost; [discriminate | exact AV].
Qed.

(** ** Start tags *)
Lemma startTag_ns V k j st ts s p b t atts tl e r : Quiet V st ts s -> Rep k [] V -> name_start b -> At p (render_markup (MStart (j ++ b :: t) atts tl e) ++ r) ->
  wf_markup j st (MStart (j ++ b :: t) atts tl e) -> Forall name_char t ->
  match start_tag j (zlen st) (j ++ b :: t) atts k with
  | Fine k' => exists s1 V', DocBase.goes cf fin StTagStart (tagState j p b s) (processElementTail cf) s1 /\
      Quiet V' (after (MStart (j ++ b :: t) atts tl e) st) (ts ++ markup_toks j p (depth st) (MStart (j ++ b :: t) atts tl e)) s1 /\
      Pos (p + zlen (render_markup (MStart (j ++ b :: t) atts tl e))) s1 /\ s_helper s1 = negb e /\ Rep k' [] V'
  | Refused => lost StTagStart (tagState j p b s)
  | Beyond => True
  end.
Proof.
  intros Q R Hb H (_ & HF & Hd & Ha & Hnd & Hna & Htl) Ht. set (n := j ++ b :: t) in *. cbn [render_markup] in H |- *. fold (close e) in H |- *.
  repeat rewrite <- app_assoc in H. destruct (rest_head atts tl e r Ha Htl) as (c & l & E & Hc). rewrite E in H.
  pose proof (startName_ns V k j st ts s p b t c l Q R H Ht Hc HF Hd) as SN. fold n in SN. unfold start_tag.
  destruct (xmlns_tag j n); [apply never_lost; [discriminate | exact SN]|].
  destruct (enter (zlen st) k) as [k1| |]; [|contradiction | exact I]. destruct SN as (s1 & V1 & E1 & T1 & P1 & C1 & R1 & HR1). cbn [also].
  pose proof (attrs_ns j atts (startL cf) (startTagClose cf) [] V1 k1 n st (ts ++ [startTok j p st n]) s1 (p + zlen n) tl e r c l ltac:(constructor) T1 P1 C1
    (At_app cf _ _ _ H) (eq_sym E) Ha Hnd Hna Htl R1 HR1) as G. cbn [app] in G. fold (prefixed_names atts) in G.
  destruct (also (declare_all k1 atts) (leave j n (prefixed_names atts))) as [k'| |]; [|eapply lost_then; [discriminate | exact E1 | exact G] | exact I].
  destruct G as (s2 & V2 & E2 & Q2 & P2 & F2 & R2).
  exists s2, V2. split; [eapply (DocTag.goes_becomes cf fin); [discriminate | exact E1 | exact E2]|].
  split; [|split; [rewrite (zlen_app n), Z.add_assoc; exact P2 | split; [exact F2 | exact R2]]].
  cbn [markup_toks after]. rewrite <- app_assoc in Q2. cbn [app] in Q2.
  replace (depth (n :: st)) with (depth st + 1) in Q2 by (unfold depth; rewrite zlen_cons; lia). destruct e; exact Q2.
Qed.
End Start.
