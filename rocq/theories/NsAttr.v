(** Attributes with namespace awareness. *)
From Verif Require Import Lib XmlChar XmlCharProofs Buffer BufferProofs Reader ParserState ParserPrim ParserProc ParserMain
  SpecParse SpecChar SpecDoc SpecScope ParserWp ParserInv ParserInvTag ParserInvMain TokenProofs SpecToken RelAware DocScan DocBase DocGap DocTag NsBase NsUrl NsLoop NsTag.

(** ** Names *)
Lemma ns_split nm : ns_name nm = true -> exists z, nm = lit "xmlns" ++ z /\ (z = [] \/ exists t, z = x3a :: t).
Proof.
  unfold ns_name. destruct (list_eq_dec _ _ _) as [E|]; [|discriminate]. intros H. exists (skipn 5 nm). split; [rewrite <- E, firstn_skipn; reflexivity|].
  destruct (skipn 5 nm) as [|b t]; [left; reflexivity|]. right. apply Byte.byte_dec_bl in H. subst b. exists t. reflexivity.
Qed.
Lemma ns_default nm : ns_name nm = true -> zlen nm = 5 -> prefix_from 1 nm = 0.
Proof.
  intros H L. destruct (ns_split nm H) as (z & -> & [-> | (t & ->)]); [reflexivity|]. rewrite zlen_app, zlen_cons in L. change (zlen (lit "xmlns")) with 5 in L. pose proof (zlen_nonneg t). lia.
Qed.
Lemma last_colon_ge x : forall i acc, 0 <= acc <= i -> acc <= last_colon i acc x.
Proof.
  induction x as [|b x IH]; intros i acc H; cbn [last_colon]; [lia|]. destruct (Byte.eqb b x3a); [specialize (IH (i + 1) i) | specialize (IH (i + 1) acc)]; lia.
Qed.
Lemma ns_prefixed nm : ns_name nm = true -> zlen nm <> 5 -> 5 <= prefix_from 1 nm.
Proof.
  intros H L. destruct (ns_split nm H) as (z & -> & [-> | (t & ->)]); [exfalso; apply L; reflexivity|].
  unfold prefix_from. lits. change (Z.to_nat 1) with 1%nat. cbn [app skipn last_colon]. cbn. apply (last_colon_ge t 6 5). lia.
Qed.
Lemma ns_nonempty nm : ns_name nm = true -> nm <> [].
Proof. intros H E. subst nm. discriminate H. Qed.
Lemma xml_prefix nm : nm <> [] -> same (prefix_of nm) (lit "xml") = (prefix_from 1 nm =? 3) && starts (lit "xml") nm.
Proof.
  intros Hn. rewrite starts_firstn. change (length (lit "xml")) with 3%nat. pose proof (prefix_len nm Hn) as L. unfold prefix_of in *.
  destruct (Z.eqb_spec (prefix_from 1 nm) 3) as [E|E].
  - rewrite E. reflexivity.
  - cbn [andb]. destruct (same _ _) eqn:S; [|reflexivity]. apply same_true in S. rewrite S in L. change (zlen (lit "xml")) with 3 in L. congruence.
Qed.
Lemma same_short p l : zlen l = zlen p -> starts p l = same l p.
Proof. intros H. rewrite starts_firstn, firstn_all2; [reflexivity|]. unfold zlen in H. lia. Qed.
Lemma same_long p l : zlen l <> zlen p -> same l p = false.
Proof. intros H. destruct (same l p) eqn:E; [|reflexivity]. apply same_true in E. congruence. Qed.

Section Attr.
Variable cf : cfg.
Variable fin : nat -> M unit.
Notation doc := (c_doc cf).
Hypothesis HE : c_end cf = zlen doc.
Hypothesis HD : zlen doc < 2^31.
Hypothesis HN : c_ns cf = true.
Hypothesis Hap : forall i, znth doc i = Some x26 -> znth doc (i + 1) = Some x61 -> znth doc (i + 2) = Some x70 -> znth doc (i + 3) = Some x3b -> False.
Hypothesis Haos : forall i, znth doc i = Some x26 -> znth doc (i + 1) = Some x61 -> znth doc (i + 2) = Some x6f -> znth doc (i + 3) = Some x73 ->
  znth doc (i + 4) = Some x3b -> False.
Local Notation At := (DocScan.At cf).
Local Notation Rep := (NsBase.Rep cf).
Local Notation Base V := (@DocBase.Base cf V).
Local Notation Tagged V := (@DocBase.Tagged cf V).
Local Notation Quiet V := (@DocBase.Quiet cf V).
Local Notation at_end := (DocGap.at_end cf HD).
Local Notation parseErr_not := (DocScan.parseErr_not cf).

(** ** The checks of a declared name *)
Lemma checks_ok nm p c r s : s_last s = p -> s_len1 s = zlen nm -> s_len2 s = prefix_from 1 nm -> s_isNs s = ns_name nm ->
  (ns_name nm = true -> s_defaultNs s = is_default nm) -> s_isXml s = false -> s_inc s = 1 -> s_enc s = 0 ->
  At p (nm ++ c :: r) -> ~ name_char c ->
  if ns_name nm && negb (is_default nm) then
    if same (local_of nm) (lit "xmlns") then never (attrNameNsChecks cf s)
    else attrNameNsChecks cf s = ROk tt (set_isXml (same (local_of nm) (lit "xml")) s)
  else attrNameNsChecks cf s = ROk tt s.
Proof.
  intros Hl H1 H2 Hn Hd Hx Hi He H Hc. unfold attrNameNsChecks. rewrite bind_get. cbv beta zeta.
  change (s_isNs s) with (s_isNs s). change (s_defaultNs s) with (s_defaultNs s). rewrite Hn, HN, andb_true_r.
  destruct (ns_name nm) eqn:En; cbn [andb]; [|reflexivity]. rewrite (Hd eq_refl). destruct (is_default nm) eqn:Ed; cbn [negb]; [reflexivity|].
  assert (ES : set_isXml false s = s) by (rewrite <- Hx; reflexivity).
  pose proof (ns_nonempty _ En) as Hne. pose proof (prefix_range nm Hne) as Rg. pose proof (local_len nm Hne) as Ll.
  pose proof (At_skip cf p nm (c :: r) (prefix_from 1 nm + 1) H ltac:(lia)) as HA. fold (local_of nm) in HA.
  change (s_inc s) with (s_inc s). change (s_last s) with (s_last s). change (s_len1 s) with (s_len1 s). change (s_len2 s) with (s_len2 s). rewrite Hi, Hl, H1, H2.
  change (1 =? 1) with true. change (1 =? 2) with false. cbn [andb]. rewrite !orb_false_r. replace (p + prefix_from 1 nm + 1) with (p + (prefix_from 1 nm + 1)) by lia.
  replace (zlen nm - prefix_from 1 nm =? 6) with (zlen (local_of nm) =? 5) by lia. replace (zlen nm - prefix_from 1 nm =? 4) with (zlen (local_of nm) =? 3) by lia.
  pose proof (checkXmlns_ok cf (local_of nm) _ c r (-1) false s He HA Hc) as X1. pose proof (checkXml_ok cf (local_of nm) _ c r (-1) false s He HA Hc) as X2.
  cbn [negb orb] in X1, X2. rewrite andb_true_r in X1, X2.
  destruct (Z.eqb_spec (zlen (local_of nm)) 5) as [E5|E5].
  - rewrite (same_short (lit "xmlns")) in X1 by exact E5. rewrite (same_long (lit "xml")) by (change (zlen (lit "xml")) with 3; lia).
    destruct (Z.eqb_spec (zlen (local_of nm)) 3); [lia|].
    destruct (same (local_of nm) (lit "xmlns")).
    + apply never_bind. eapply never_then; [exact X1|]. intros a s' K. exact (parseErrAt_not cf _ _ _ _ _ K).
    + rewrite ES. eapply bind_eq; [eapply bind_eq; [exact X1|reflexivity]|]. reflexivity.
  - rewrite (same_long (lit "xmlns")) by exact E5. destruct (Z.eqb_spec (zlen (local_of nm)) 3) as [E3|E3].
    + rewrite (same_short (lit "xml")) in X2 by exact E3. eapply bind_eq; [reflexivity|]. eapply bind_eq; [exact X2|]. reflexivity.
    + rewrite (same_long (lit "xml")) by exact E3. rewrite ES. reflexivity.
Qed.

(** ** The attribute lists *)
Lemma prefixed_eq nm : nm <> [] -> prefixed nm = negb (ns_name nm) && negb (prefix_from 1 nm =? 0) && negb ((prefix_from 1 nm =? 3) && starts (lit "xml") nm).
Proof. intros H. unfold prefixed. rewrite xml_prefix by exact H. reflexivity. Qed.
Lemma filter_snoc (nm : list byte) l : filter prefixed (l ++ [nm]) = filter prefixed l ++ (if prefixed nm then [nm] else []).
Proof. rewrite filter_app. reflexivity. Qed.
Lemma filter_len (l : list (list byte)) : zlen (filter prefixed l) <= zlen l.
Proof. induction l as [|a l IH]; cbn [filter]; [lia|]. destruct (prefixed a); rewrite ?zlen_cons; lia. Qed.
Lemma rep_user k us V p nm c r l : Rep k us V -> zupd (@v_prefNames V) (@v_prefCount V) (prefWord p (prefix_from 1 nm) (zlen nm)) = Some l ->
  nm <> [] -> name_fits 1 nm -> At p (nm ++ c :: r) ->
  Rep k (us ++ [nm]) (NsView (@v_ns1 V) (@v_ns2 V) (@v_ns3 V) (@v_rec V) l (@v_prefCount V + 1) (@v_prefUrls V)).
Proof.
  intros [R1 R2 R3 R4 R5 R6 R7 (R8 & R8') R9] E Hne (F1 & F2) H. unfold max_name, max_prefix in *. pose proof (at_end _ _ _ H) as L. rewrite zlen_cons in L. pose proof (zlen_nonneg r). pose proof (zlen_nonneg nm).
  constructor; cbn [v_ns1 v_ns2 v_ns3 v_rec v_prefNames v_prefCount v_prefUrls]; try assumption.
  - rewrite R7, zlen_app. reflexivity.
  - split; [rewrite (zupd_zlen _ _ _ _ E); exact R8|]. intros i m Hm. rewrite R7 in E. destruct (Nat.lt_ge_cases i (length us)) as [Hi|Hi].
    + rewrite nth_error_app1 in Hm by exact Hi. destruct (R8' i m Hm) as (e & He & HA). exists e. split; [|exact HA].
      rewrite (zupd_other _ _ _ _ _ E); [exact He|]. unfold zlen. lia.
    + rewrite nth_error_app2 in Hm by exact Hi. destruct (i - length us)%nat as [|x] eqn:Ei; cbn in Hm; [|destruct x; discriminate Hm]. injection Hm as <-.
      assert (Z.of_nat i = zlen us) as -> by (unfold zlen; lia). eexists. split; [exact (zupd_same _ _ _ _ E)|].
      exists p, (c :: r). split; [reflexivity|]. split; [exact Hne|]. split; [lia|]. split; [lia|]. split; [|exact H]. pose proof (proj1 H). lia.
Qed.
(** [checkAttrUniqueness], the length of the name being known *)
Lemma unique_ok k names nm p c r s : Rep k (filter prefixed names) (nsv s) -> s_attrCount s = zlen names -> namesOk cf names s -> zlen (s_attrNames s) = 256 ->
  s_last s = p -> s_len1 s = zlen nm -> s_len2 s = prefix_from 1 nm -> s_isNs s = ns_name nm -> s_inc s = 1 -> s_enc s = 0 ->
  At p (nm ++ c :: r) -> ~ name_char c -> nm <> [] -> name_fits 1 nm -> ~ In nm names -> zlen names < 256 ->
  exists a V', checkAttrUniqueness cf s = ROk tt (nsPut V' (set_attrCount (zlen names + 1) (set_attrNames a s))) /\
    zupd (s_attrNames s) (zlen names) (Z.lor (shl64 p 32) (zlen nm)) = Some a /\
    Rep k (filter prefixed (names ++ [nm])) V' /\ @v_rec V' = s_rec s.
Proof.
  intros R AC NM B7 Hl H1 H2 Hn Hi He H Hc Hne HF Hin Hcn. pose proof (zlen_nonneg names).
  destruct (proj2 (zupd_some_iff (s_attrNames s) (zlen names) (Z.lor (shl64 p 32) (zlen nm)))) as (a & Ea); [lia|].
  set (s2 := set_attrCount (zlen names + 1) (set_attrNames a s)).
  assert (EQ : forall X, (if c_ns cf && negb (s_isNs s2) && negb (s_len2 s2 =? 0) then
      isXml <- checkXmlPrefix cf (s_last s2) (-1) false ;;
      if ((s_inc s2 =? 1) && (s_len2 s2 =? 3) && isXml) || ((s_inc s2 =? 2) && (s_len2 s2 =? 6) && isXml) then ret tt else storePrefName
      else ret tt) s2 = X -> checkAttrUniqueness cf s = X).
  { intros X K. unfold checkAttrUniqueness. rewrite bind_get. cbv beta. change (s_attrCount s) with (s_attrCount s). rewrite AC, (to_nat_zlen cf).
    eapply bind_eq; [apply (attrUnique_ok cf names 0 s nm (c :: r)); [rewrite Hl; exact H | exact H1 | exact NM]|].
    cbv beta. rewrite (proj2 (in_same names nm) Hin). cbn [negb andb].
    eapply bind_eq; [unfold storeAttrName; change (s_attrNames s) with (s_attrNames s); change (s_attrCount s) with (s_attrCount s); change (s_last s) with (s_last s); change (s_len1 s) with (s_len1 s);
      rewrite AC, Hl, H1, Ea; reflexivity|].
    exact K. }
  change (s_isNs s2) with (s_isNs s) in EQ. change (s_len2 s2) with (s_len2 s) in EQ. change (s_last s2) with (s_last s) in EQ. change (s_inc s2) with (s_inc s) in EQ.
  rewrite HN, Hn, H2, Hl, Hi in EQ. change (1 =? 1) with true in EQ. change (1 =? 2) with false in EQ. cbn [andb] in EQ.
  pose proof (filter_snoc nm names) as EF. pose proof (prefixed_eq nm Hne) as EP.
  destruct (negb (ns_name nm) && negb (prefix_from 1 nm =? 0)) eqn:E1; cbn [andb] in EP.
  2: { rewrite EP, app_nil_r in EF. exists a, (nsv s). split; [apply EQ; reflexivity|]. split; [exact Ea|]. rewrite EF. split; [exact R | reflexivity]. }
  pose proof (checkXml_ok cf nm p c r (-1) false s2 He H Hc) as X. cbn [negb orb] in X. rewrite andb_true_r in X.
  destruct ((prefix_from 1 nm =? 3) && starts (lit "xml") nm) eqn:E2; cbn [negb] in EP.
  { rewrite EP, app_nil_r in EF. exists a, (nsv s). split; [apply EQ; eapply bind_eq; [exact X|]; cbv beta; rewrite E2; reflexivity|]. split; [exact Ea|]. rewrite EF. split; [exact R | reflexivity]. }
  rewrite EP in EF. destruct (rep_names _ _ _ _ R) as (RL & _). pose proof (rep_count _ _ _ _ R) as RC. cbn in RL, RC. pose proof (filter_len names) as FL. pose proof (zlen_nonneg (filter prefixed names)).
  destruct (proj2 (zupd_some_iff (s_prefNames s) (s_prefCount s) (prefWord p (prefix_from 1 nm) (zlen nm)))) as (l & El); [lia|].
  exists a, (NsView (s_ns1 s) (s_ns2 s) (s_ns3 s) (s_rec s) l (s_prefCount s + 1) (s_prefUrls s)). split; [|split; [exact Ea|]].
  - apply EQ. eapply bind_eq; [exact X|]. cbv beta. rewrite E2. cbn [orb]. unfold storePrefName.
    change (s_prefNames s2) with (s_prefNames s). change (s_prefCount s2) with (s_prefCount s). change (s_last s2) with (s_last s). change (s_len2 s2) with (s_len2 s). change (s_len1 s2) with (s_len1 s).
    rewrite Hl, H1, H2. unfold prefWord in El. rewrite El. reflexivity.
  - rewrite EF. split; [|reflexivity]. exact (rep_user k _ (nsv s) p nm c r l R El Hne HF H).
Qed.

(** Between the name and the value of a declaration: its prefix is recorded, its URL is not yet. *)
Definition Half (k : scope) (p : list byte) (us : list (list byte)) (V : nsview) : Prop :=
  exists W log, V = NsView (@v_ns1 W) (@v_ns2 W) (nbuf log (g_in k + 1)) (@v_rec W) (@v_prefNames W) (@v_prefCount W) (@v_prefUrls W) /\
    Rep k us W /\ g_in k < 64 /\ (g_decls k <> [] -> 0 < g_in k) /\ Forall2 (declEntry cf) log (g_decls k ++ [p]).
Lemma log_empty (k : scope) log : Forall2 (declEntry cf) log (g_decls k) -> (log = [] <-> g_decls k = []).
Proof. intros F. split; intros E; rewrite E in F; inversion F; reflexivity. Qed.
Lemma half_ok k us V nm p c r : Rep k us V -> ns_name nm = true -> is_default nm = false -> name_fits 1 nm -> At p (nm ++ c :: r) ->
  if (g_in k =? 0) && negb (zlen (g_decls k) =? 0) then exists e, snd (bappend (@v_ns3 V) (declWord (prefix_from 1 nm) (zlen nm) p)) = Err e
  else g_in k < 64 -> exists b, bappend (@v_ns3 V) (declWord (prefix_from 1 nm) (zlen nm) p) = (b, Ok tt) /\
    Half k (local_of nm) us (NsView (@v_ns1 V) (@v_ns2 V) b (@v_rec V) (@v_prefNames V) (@v_prefCount V) (@v_prefUrls V)).
Proof.
  intros R Hn Hd (F1 & F2) H. unfold max_name, max_prefix in *. destruct (rep_ns3 _ _ _ _ R) as (log & E3 & F3). rewrite E3. pose proof (rep_in _ _ _ _ R) as (I1 & I2).
  pose proof (ns_nonempty _ Hn) as Hne. pose proof (prefix_range nm Hne) as Rg. pose proof (local_len nm Hne) as Ll. pose proof (log_empty k log F3) as LE.
  pose proof (At_skip cf p nm (c :: r) (prefix_from 1 nm + 1) H ltac:(lia)) as HA. fold (local_of nm) in HA.
  pose proof (at_end _ _ _ H) as L. rewrite zlen_cons in L. pose proof (zlen_nonneg r). pose proof (proj1 H).
  destruct ((g_in k =? 0) && negb (zlen (g_decls k) =? 0)) eqn:E.
  - apply andb_true_iff in E. destruct E as [E0 E1]. assert (E0' : g_in k = 0) by lia. rewrite E0'. apply nbuf_stale. intros K. apply LE in K. rewrite K in E1. discriminate E1.
  - intros Hg. assert (HP : g_decls k <> [] -> 0 < g_in k).
    { intros K. destruct (g_decls k) as [|d ds]; [congruence|]. rewrite zlen_cons in E. pose proof (zlen_nonneg ds). lia. }
    eexists. split; [apply nbuf_append; [exact (in_size cf _ _ _ R _ F3) | intros K; apply HP; intros K2; apply K, LE, K2 | exact Hg]|].
    exists V. eexists. split; [reflexivity|]. split; [exact R|]. split; [exact Hg|]. split; [exact HP|]. apply Forall2_app; [exact F3|]. constructor; [|constructor].
    exists (prefix_from 1 nm), p, (c :: r). split; [rewrite Ll; f_equal; lia|]. split; [lia|]. split; [lia|]. split; [lia|]. rewrite Z.add_assoc in HA. exact HA.
Qed.

(** ** The checks and the token of an attribute name *)
Definition declaring (nm : list byte) : bool := ns_name nm && negb (is_default nm).
Definition stale (k : scope) : bool := (g_in k =? 0) && negb (zlen (g_decls k) =? 0).
Definition named (k : scope) (names : list (list byte)) (nm : list byte) (V : nsview) : Prop :=
  if declaring nm && negb (same (local_of nm) (lit "xml")) then Half k (local_of nm) (filter prefixed (names ++ [nm])) V
  else Rep k (filter prefixed (names ++ [nm])) V.
Definition midXml (nm : list byte) : bool := declaring nm && same (local_of nm) (lit "xml").
Definition midNs (V : nsview) (p : Z) (nm : list byte) (names : list (list byte)) (b : longbuf) (a : list Z) (s : pst) : pst :=
  nsPut V (set_isXml (midXml nm) (midState p nm names b a s)).
Lemma attrMid_ns V names st ts s p nm c r k : Tagged V names st ts (set_len2 0 (set_isNs false s)) -> Rep k (filter prefixed names) V ->
  s_len2 s = prefix_from 1 nm -> s_isNs s = ns_name nm -> (ns_name nm = true -> s_defaultNs s = is_default nm) ->
  s_last s = p -> s_off s = p + zlen nm + 1 -> At p (nm ++ c :: r) -> ~ name_char c -> nm <> [] -> name_fits 1 nm -> ~ In nm names -> zlen names < 256 ->
  if declaring nm && (same (local_of nm) (lit "xmlns") || negb (same (local_of nm) (lit "xml")) && stale k) then never (attrMid cf s)
  else (declaring nm && negb (same (local_of nm) (lit "xml")) = true -> g_in k < 64) ->
  exists b a V', attrMid cf s = ROk tt (midNs V' p nm names b a s) /\
    Tagged V' (names ++ [nm]) st (ts ++ [Tok (if ns_name nm then 3 else 2) p (prefix_from 1 nm * 2^11 + zlen nm) (depth st)]) (set_isXml false (set_isNs false (midNs V' p nm names b a s))) /\
    named k names nm V' /\ @v_rec V' = @v_rec V.
Proof.
  intros T R L2 Hn Hdf Hl Ho H Hc Hne HF Hin Hcn. pose proof T as (B & D & Tg & _ & _ & AC & NM). qsimp_in D. qsimp_in AC.
  pose proof B as (B1 & B2 & B3 & B4 & B5 & B6 & B7 & B8 & B9 & BN & BX).
  assert (EV : V = nsv s) by (symmetry; exact BN). clear BN. subst V.
  pose proof HF as (F1 & F2). pose proof (at_end _ _ _ H) as L. rewrite zlen_cons in L. pose proof (zlen_nonneg r). pose proof (zlen_nonneg nm). pose proof (zlen_nonneg names).
  unfold max_name, max_prefix in F1, F2. assert (F3 : 0 <= prefix_from 1 nm) by (apply prefix_range, Hne).
  set (s1 := set_len1 (zlen nm) s).
  assert (EQ : forall X, bind (attrNameNsChecks cf) (fun _ => checkAttrUniqueness cf ;;; writeAttrName cf ;;; modify (set_len2 0)) s1 = X -> attrMid cf s = X).
  { intros X K. unfold attrMid. eapply bind_eq; [apply prevOff; exact B4|]. run. rewrite Ho, Hl. replace (p + zlen nm + 1 - 1 - p) with (zlen nm) by lia. exact K. }
  pose proof (checks_ok nm p c r s1 Hl eq_refl L2 Hn Hdf BX B2 B4 H Hc) as CK. fold (declaring nm) in CK.
  assert (CK' : if declaring nm && same (local_of nm) (lit "xmlns") then never (attrNameNsChecks cf s1) else attrNameNsChecks cf s1 = ROk tt (set_isXml (midXml nm) s1)).
  { unfold midXml. destruct (declaring nm); cbn [andb]; [exact CK|]. rewrite CK. assert (ES : set_isXml false s1 = s1) by (transitivity (set_isXml (s_isXml s1) s1); [f_equal; symmetry; exact BX | reflexivity]). rewrite ES. reflexivity. }
  clear CK. destruct (declaring nm && same (local_of nm) (lit "xmlns")) eqn:E1.
  { apply andb_true_iff in E1. destruct E1 as [-> ->]. cbn [andb orb]. intros a s' K. rewrite (EQ _ eq_refl) in K. revert K. apply never_bind. exact CK'. }
  set (s2 := set_isXml (midXml nm) s1) in *.
  destruct (unique_ok k names nm p c r s2 R AC NM B7 Hl eq_refl L2 Hn B2 B4 H Hc Hne HF Hin Hcn) as (a & V1 & EU & Ea & R1 & RR).
  set (s3 := nsPut V1 (set_attrCount (zlen names + 1) (set_attrNames a s2))) in *.
  assert (EQ2 : forall X, bind (writeAttrName cf) (fun _ => modify (set_len2 0)) s3 = X -> attrMid cf s = X).
  { intros X K. apply EQ. eapply bind_eq; [exact CK'|]. eapply bind_eq; [exact EU|]. exact K. }
  clear EQ. change (s_attrNames s2) with (s_attrNames s) in Ea.
  set (s4 := set_isNs false (set_len2 0 (set_attrCount (zlen names + 1) (set_attrNames a s1)))).
  destruct (@write_ok cf (nsv s) ts s4 (Tok (if ns_name nm then 3 else 2) p (prefix_from 1 nm * 2^11 + zlen nm) (depth st))) as (b & Eb & Bb); [| |destruct (ns_name nm); discriminate|].
  { split; [exact B1|]. split; [exact B2|]. split; [exact B3|]. split; [exact B4|]. split; [exact B5|]. split; [exact B6|]. split; [|split; [exact B8|exact (conj B9 (conj eq_refl BX))]].
    subst s4. qsimp. rewrite (zupd_zlen _ _ _ _ Ea). exact B7. }
  { unfold fits. cbn [t_type t_len t_off]. pose proof (proj1 H). split; [destruct (ns_name nm); lia|]. split; [left|]; lia. }
  cbn [t_type t_off t_len t_depth] in Eb.
  assert (W2 : forall t, s_vtd t = s_vtd s -> writeVtd (if ns_name nm then TokAttrNs else TokAttrName) p (prefix_from 1 nm * 2^11 + zlen nm) (depth st) t = ROk tt (set_vtd b t)).
  { intros t Et. unfold writeVtd, appendTo in *. change (s_vtd s4) with (s_vtd s) in Eb. change (s_vtd t) with (s_vtd t). rewrite Et.
    replace (if ns_name nm then TokAttrNs else TokAttrName) with (if ns_name nm then 3 else 2) by (destruct (ns_name nm); reflexivity).
    match type of Eb with context [bappend ?x ?y] => destruct (bappend x y) as [k' [[]|e|w]]; try discriminate Eb end.
    injection Eb as Eb. assert (k' = b) as -> by exact Eb. reflexivity. }
  set (tk := Tok (if ns_name nm then 3 else 2) p (prefix_from 1 nm * 2^11 + zlen nm) (depth st)) in *.
  assert (TT : forall V', Tagged V' (names ++ [nm]) st (ts ++ [tk]) (set_isXml false (set_isNs false (midNs V' p nm names b a s)))).
  { intros V'. assert (T0 : Tagged (nsv s) (names ++ [nm]) st (ts ++ [tk]) (set_vtd b s4)).
    { split; [exact Bb|]. split; [exact D|]. split; [exact Tg|]. split; [reflexivity|]. split; [reflexivity|]. split; [rewrite zlen_app; reflexivity|].
      intros i m Hm. change (exists e, znth a (Z.of_nat i) = Some e /\ attrEntry cf e m).
      destruct (Nat.lt_ge_cases i (length names)) as [Hi|Hi].
      + rewrite nth_error_app1 in Hm by exact Hi. destruct (NM i m Hm) as (e & He & HA). exists e. split; [|exact HA].
        rewrite (zupd_other _ _ _ _ _ Ea); [exact He|]. unfold zlen. lia.
      + rewrite nth_error_app2 in Hm by exact Hi. destruct (i - length names)%nat as [|x] eqn:Ei; cbn in Hm; [|destruct x; discriminate Hm]. injection Hm as <-.
        assert (Z.of_nat i = zlen names) as -> by (unfold zlen; lia). exists (Z.lor (shl64 p 32) (zlen nm)). split; [exact (zupd_same _ _ _ _ Ea)|].
        exists p, (c :: r). split; [reflexivity|]. split; [pose proof (proj1 H); lia|]. split; [lia | exact H]. }
    assert (EX : set_isXml false (set_isNs false (midNs V' p nm names b a s)) = nsPut V' (set_vtd b s4)).
    { transitivity (nsPut V' (set_vtd b (set_isXml false s4))); [reflexivity|]. f_equal. f_equal. transitivity (set_isXml (s_isXml s4) s4); [f_equal; symmetry; exact BX | reflexivity]. }
    rewrite EX. exact (tagged_put cf _ V' _ _ _ _ T0). }
  set (app := appendTo s_ns3 set_ns3 (declWord (prefix_from 1 nm) (zlen nm) p)).
  assert (W3 : forall X, bind (if declaring nm && negb (same (local_of nm) (lit "xml")) then app else ret tt)
      (fun _ => writeVtd (if ns_name nm then TokAttrNs else TokAttrName) p (prefix_from 1 nm * 2^11 + zlen nm) (depth st) ;;; modify (set_len2 0)) s3 = X -> attrMid cf s = X).
  { intros X K. apply EQ2. unfold writeAttrName. rewrite bind_assoc, bind_get. cbv beta zeta.
    change (s_isNs s3) with (s_isNs s). change (s_len2 s3) with (s_len2 s). change (s_len1 s3) with (zlen nm). change (s_last s3) with (s_last s). change (s_single s3) with (s_single s).
    change (s_depth s3) with (s_depth s). change (s_isXml s3) with (midXml nm). change (s_single s = true) in B3. change (s_isNs s) with (s_isNs s). rewrite B3, L2, Hl, Hn, D, HN, andb_true_r.
    change maxPrefixLength with 511. change maxQnameLength with 2047.
    destruct (Z.ltb_spec 511 (prefix_from 1 nm)); [lia|]. destruct (Z.ltb_spec 2047 (zlen nm)); [lia|]. cbn [orb].
    rewrite (shl64_mul (prefix_from 1 nm) 11), lor_disjoint by lia. rewrite bind_assoc.
    assert (EC : ns_name nm && negb (prefix_from 1 nm =? 0) && negb (midXml nm) = declaring nm && negb (same (local_of nm) (lit "xml"))).
    { unfold midXml, declaring, is_default. destruct (ns_name nm) eqn:En; cbn [andb]; [|reflexivity]. destruct (Z.eqb_spec (zlen nm) 5) as [E5|E5]; cbn [negb andb].
      - rewrite (ns_default nm En E5). reflexivity.
      - pose proof (ns_prefixed nm En E5). destruct (Z.eqb_spec (prefix_from 1 nm) 0); [lia|]. reflexivity. }
    rewrite EC. exact K. }
  clear EQ2.
  destruct (declaring nm && negb (same (local_of nm) (lit "xml"))) eqn:E2.
  - apply andb_true_iff in E2. destruct E2 as [E2 E3]. rewrite E2, E3 in *. cbn [andb] in E1. rewrite E1. cbn [orb andb].
    unfold declaring in E2. apply andb_true_iff in E2. destruct E2 as [E2 E4]. apply negb_true_iff in E4.
    pose proof (half_ok k _ V1 nm p c r R1 E2 E4 HF H) as HH. fold (stale k) in HH. destruct (stale k).
    + destruct HH as (e & HH). intros x s' K. rewrite (W3 _ eq_refl) in K. revert K. apply never_bind. unfold app, appendTo.
      change (s_ns3 s3) with (@v_ns3 V1). destruct (bappend (@v_ns3 V1) _) as [b' rr]. cbn [snd] in HH. rewrite HH. intros y t K. discriminate K.
    + intros Hg. destruct (HH (Hg eq_refl)) as (b3 & EB & HH').
      exists b, a. match type of HH' with Half _ _ _ ?V => exists V end. split; [|split; [apply TT|split; [|]]].
      * apply W3. eapply bind_eq; [apply appendTo_eq; exact EB|]. eapply bind_eq; [apply W2; reflexivity|].
        reflexivity.
      * unfold named. unfold declaring. rewrite E2, E4. cbn [andb negb]. rewrite E3. exact HH'.
      * exact RR.
  - assert (EG : declaring nm && (same (local_of nm) (lit "xmlns") || negb (same (local_of nm) (lit "xml")) && stale k) = false).
    { destruct (declaring nm); cbn [andb] in *; [|reflexivity]. rewrite E1, E2. reflexivity. }
    rewrite EG. intros _. exists b, a, V1. split; [|split; [apply TT|split; [unfold named; rewrite E2; exact R1 | exact RR]]].
    apply W3. eapply bind_eq; [reflexivity|]. eapply bind_eq; [apply W2; reflexivity|]. reflexivity.
Qed.

Definition bad_name (k : scope) (nm : list byte) : bool :=
  declaring nm && (same (local_of nm) (lit "xmlns") || negb (same (local_of nm) (lit "xml")) && stale k).
Lemma attrName_ns V k names st ts s p nm b t e1 e2 q r : Tagged V names st ts s -> Rep k (filter prefixed names) V -> s_last s = p -> Pos (p + 1) s -> s_cur s = b2z b ->
  nm = b :: t -> Forall name_char nm -> At p (nm ++ e1 ++ x3d :: e2 ++ q :: r) -> name_fits 1 nm -> ~ In nm names -> zlen names < 256 ->
  blank e1 = true -> blank e2 = true -> quote q ->
  if bad_name k nm then never (processAttrName cf s)
  else (declaring nm && negb (same (local_of nm) (lit "xml")) = true -> g_in k < 64) ->
  exists s' V', processAttrName cf s = ROk StAttrVal s' /\
    Tagged V' (names ++ [nm]) st (ts ++ [Tok (if ns_name nm then 3 else 2) p (prefix_from 1 nm * 2^11 + zlen nm) (depth st)]) (set_isXml false (set_isNs false s')) /\
    named k names nm V' /\ @v_rec V' = @v_rec V /\
    s_isXml s' = midXml nm /\ s_isNs s' = ns_name nm /\ (ns_name nm = true -> s_defaultNs s' = is_default nm) /\
    Pos (p + zlen nm + zlen e1 + 1 + zlen e2 + 1) s' /\ s_last s' = p + zlen nm + zlen e1 + 1 + zlen e2 + 1 /\ s_cur s' = b2z q.
Proof.
  intros T R Hl P Hc En F H HF Hin Hcn H1 H2 Hq. destruct (eq_head e1 (e2 ++ q :: r) H1) as (c & l & Ec & Hcc). pose proof T as (B & D & _ & L2 & NS & _ & _).
  pose proof B as (B1 & B2 & _). pose proof H as H0. rewrite En in H0. cbn [app] in H0. apply (At_cons cf) in H0. destruct H0 as (_ & _ & H0). rewrite Ec in H0.
  destruct (attrName_scan cf HE s p b t c l) as (ns & df & E & Hns); try assumption; [rewrite <- En; exact F | apply eq_not_name, Hcc|].
  rewrite <- En in E, Hns. destruct (Hns Hcc) as (Hns' & Hdf). subst ns.
  set (s1 := set_len2 _ _) in E. pose proof H as HA. rewrite Ec in HA.
  assert (Hne : nm <> []) by (rewrite En; discriminate).
  pose proof (attrMid_ns V names st ts s1 p nm c l k) as M. specialize (M ltac:(destruct T as (X1 & X2 & X3 & X4 & X5 & X6 & X7); split; [exact X1|]; split; [exact X2|]; split; [exact X3|]; split; [reflexivity|]; split; [reflexivity|]; split; [exact X6|exact X7])).
  specialize (M R eq_refl eq_refl Hdf Hl eq_refl HA (eq_not_name _ Hcc) Hne HF Hin Hcn). fold (bad_name k nm) in M.
  destruct (bad_name k nm).
  - intros x s' K. rewrite attrName_parts in K. revert K. eapply never_then; [exact E|]. apply never_bind. exact M.
  - intros Hg. destruct (M Hg) as (bb & a & V' & E2 & T2 & NV & RV).
    eexists. exists V'. split; [rewrite attrName_parts; eapply bind_eq; [exact E|]; eapply bind_eq; [exact E2|];
      apply (attrEq_ok cf HE _ (p + zlen nm) e1 e2 q r c l); [exact B1 | split; reflexivity | reflexivity | apply (At_app cf); rewrite <- Ec; exact H | symmetry; exact Ec | exact H1 | exact H2 | exact Hq]|].
    split; [exact T2|]. split; [exact NV|]. split; [exact RV|]. split; [reflexivity|]. split; [reflexivity|]. split; [exact Hdf|]. split; [split; reflexivity|]. split; reflexivity.
Qed.

(** ** Attribute values *)
Lemma half_done k p us V v : Half k p us V -> 0 < lower32 v ->
  exists b, bappend (@v_ns2 V) v = (b, Ok tt) /\
    Rep (Scope (g_tags k) (g_level k) (g_decls k ++ [p]) (g_in k + 1)) us (NsView (@v_ns1 V) b (@v_ns3 V) (@v_rec V) (@v_prefNames V) (@v_prefCount V) (@v_prefUrls V)).
Proof.
  intros (W & log & -> & R & Hg & HP & F) Hv. cbn [v_ns1 v_ns2 v_ns3 v_rec v_prefNames v_prefCount v_prefUrls].
  pose proof R as [R1 R2 (R3 & R3') R4 (log2 & E2 & L2 & P2) R6 R7 R8 R9].
  assert (LE : log2 = [] <-> g_decls k = []).
  { split; intros E; rewrite E in L2; [destruct (g_decls k) as [|x y] | destruct log2 as [|x y]]; try reflexivity; rewrite zlen_cons in L2; pose proof (zlen_nonneg y);
      change (zlen (@nil Z)) with 0 in L2; change (zlen (@nil (list byte))) with 0 in L2; lia. }
  eexists. split; [rewrite E2; apply nbuf_append; [|intros K; apply HP; intros K2; apply K, LE, K2 | exact Hg]|].
  { intros K. apply LE in K. rewrite K in R3'. change (zlen (@nil (list byte))) with 0 in R3'. lia. }
  assert (ZL : zlen (g_decls k ++ [p]) = zlen (g_decls k) + 1) by (rewrite zlen_app; reflexivity).
  constructor; cbn [g_tags g_level g_decls g_in v_ns1 v_ns2 v_ns3 v_rec v_prefNames v_prefCount v_prefUrls]; try assumption.
  - rewrite ZL. eapply Forall_impl; [|exact R2]. cbv beta. intros. lia.
  - rewrite ZL. lia.
  - exists (log2 ++ [v]). split; [reflexivity|]. split; [rewrite zlen_app, ZL, L2; reflexivity|]. intros e u E. destruct log2 as [|e0 log2]; cbn [app] in E; injection E as <- _; [exact Hv | exact (P2 _ _ eq_refl)].
  - exists log. split; [reflexivity | exact F].
Qed.
Lemma urlWord_lower o l : 0 <= o < 2^31 -> 0 <= l < 2^31 -> lower32 (Z.lor (shl64 o 32) l) = l.
Proof. intros Ho Hl. rewrite shl64_mul, lor_disjoint by lia. unfold lower32, wrap32. lia. Qed.
Lemma valNs_ok k names a s r : let nm := a_name a in let x := a_value a in
  named k names nm (nsv s) -> plain s -> s_isXml s = midXml nm -> s_isNs s = ns_name nm -> (ns_name nm = true -> s_defaultNs s = is_default nm) ->
  s_len1 s = zlen x -> At (s_last s) (x ++ r) -> r <> [] -> bad_name k nm = false ->
  match declare k a with
  | Fine k' => exists V', attrValNs cf s = ROk tt (nsPut V' s) /\ Rep k' (filter prefixed (names ++ [nm])) V' /\ @v_rec V' = s_rec s
  | Refused => never (attrValNs cf s)
  | Beyond => True
  end.
Proof.
  intros nm x. intros NV HP Hx Hn Hd Hl H Hr HB. unfold declare. fold nm. fold x. unfold bad_name in HB. unfold named in NV.
  unfold attrValNs. rewrite bind_get. cbv beta. change (s_isNs s) with (s_isNs s). rewrite HN, Hn. cbn [andb].
  unfold declaring in *. unfold midXml, declaring in Hx. destruct (ns_name nm) eqn:En; cbn [andb] in *.
  2: { exists (nsv s). split; [reflexivity|]. split; [exact NV | reflexivity]. }
  specialize (Hd eq_refl).
  assert (HI : (forall z, x <> x26 :: z) -> identifyNsUrl cf s = ROk NsDefault s).
  { intros Hz. destruct (Z.lt_ge_cases (s_len1 s) 29) as [S|S]; [apply identify_short; exact S|]. destruct x as [|b z] eqn:Ex; [change (zlen (@nil byte)) with 0 in Hl; lia|].
    cbn [app] in H. eapply (identify_none cf HD Hap Haos s b (z ++ r)); [exact HP | exact H | intros ->; apply (Hz z); reflexivity|].
    destruct z; [cbn; exact Hr | discriminate]. }
  assert (EX : forall A (P1 P2 : A), (forall z, x <> x26 :: z) -> match x with x26 :: _ => P1 | _ => P2 end = P2).
  { intros A P1 P2 Hz. destruct x as [|b z]; [reflexivity|]. destruct b; try reflexivity. exfalso. exact (Hz z eq_refl). }
  assert (HX : (exists z, x = x26 :: z) \/ (forall z, x <> x26 :: z)).
  { destruct x as [|b z]; [right; discriminate|]. destruct (byte_eq_dec b x26) as [->|Nb]; [left; exists z; reflexivity | right; congruence]. }
  destruct HX as [(z & Ez)|Hz]; [rewrite Ez; exact I|]. rewrite (EX _ _ _ Hz). specialize (HI Hz). clear EX.
  change (s_defaultNs s) with (s_defaultNs s). change (s_len1 s) with (s_len1 s). rewrite Hd, Hl.
  destruct (is_default nm) eqn:Ed; cbn [negb andb] in *.
  { exists (nsv s). split; [|split; [exact NV | reflexivity]]. eapply bind_eq; [exact HI|]. rewrite bind_get. cbv beta. change (s_isXml s) with (s_isXml s). rewrite Hx. cbn [andb].
    change (s_defaultNs s) with (s_defaultNs s). rewrite Hd. reflexivity. }
  unfold reserved. apply orb_false_iff in HB. destruct HB as [HB1 HB2]. rewrite HB1. cbn [orb].
  destruct (Z.eqb_spec (zlen x) 0) as [E0|E0].
  - assert (Ex : x = []) by (destruct x as [|b z]; [reflexivity | rewrite zlen_cons in E0; pose proof (zlen_nonneg z); lia]).
    assert (HNv : never (parseErr cf NonDefaultNsEmpty s : res unit)) by (intros u s' K; exact (parseErr_not _ _ _ _ K)).
    destruct (same (local_of nm) (lit "xml")); [exact HNv|]. cbn [negb andb] in HB2. fold (stale k). rewrite HB2. destruct (page <=? g_in k); [exact I|]. rewrite Ex. exact HNv.
  - destruct (same (local_of nm) (lit "xml")) eqn:Eml.
    + eapply never_then; [exact HI|]. rewrite bind_get. cbv beta. change (s_isXml s) with (s_isXml s). rewrite Hx. cbn [andb negb]. intros u s' K. exact (parseErr_not _ _ _ _ K).
    + cbn [negb andb] in HB2, NV. fold (stale k). rewrite HB2. unfold page. destruct (Z.leb_spec 64 (g_in k)) as [|Hg]; [exact I|].
      assert (ES : same x [] = false) by (destruct (same x []) eqn:ES; [apply same_true in ES; rewrite ES in E0; exfalso; apply E0; reflexivity | reflexivity]). rewrite ES.
      pose proof (at_end _ _ _ H) as L. pose proof (proj1 H). pose proof (zlen_nonneg x). pose proof (zlen_nonneg r).
      destruct (half_done k (local_of nm) _ (nsv s) (Z.lor (shl64 (s_last s) 32) (zlen x)) NV) as (b & EB & R).
      { rewrite urlWord_lower by lia. lia. }
      match type of R with NsBase.Rep _ _ _ ?V => exists V end. split; [|split; [exact R | reflexivity]].
      eapply bind_eq; [exact HI|]. rewrite bind_get. cbv beta. change (s_isXml s) with (s_isXml s). rewrite Hx. cbn [andb].
      change (s_defaultNs s) with (s_defaultNs s). change (s_len1 s) with (s_len1 s). rewrite Hd, Hl.
      eapply bind_eq; [apply appendTo_eq; exact EB|]. reflexivity.
Qed.
Lemma attrVal_ns V k names names' st ts s pv q a c l : let x := a_value a in let nm := a_name a in
  Tagged V names' st ts (set_isXml false (set_isNs false s)) -> named k names nm V -> s_isXml s = midXml nm -> s_isNs s = ns_name nm -> (ns_name nm = true -> s_defaultNs s = is_default nm) ->
  Pos pv s -> s_last s = pv -> s_cur s = b2z q -> quote q -> attvalue q x -> zlen x <= max_token -> At pv (x ++ q :: c :: l) -> bad_name k nm = false ->
  match declare k a with
  | Fine k' => exists s' V', processAttrVal cf s = rest cf valL (attrValClose cf) s' /\ Tagged V' names' st (ts ++ [Tok 4 pv (zlen x) (depth st)]) s' /\
      Pos (pv + zlen x + 1 + 1) s' /\ s_cur s' = b2z c /\ Rep k' (filter prefixed (names ++ [nm])) V' /\ @v_rec V' = @v_rec V
  | Refused => never (processAttrVal cf s)
  | Beyond => True
  end.
Proof.
  intros x nm T NV Hxm Hn Hdf [Po Pr] Hl Hc Hq Hx Hm H HB. pose proof T as (B & D & Tg & L2 & _ & AC & NM). pose proof B as (B1 & B2 & B3 & B4 & B5 & B6 & B7 & B8 & B9 & BN & BX).
  assert (EV : V = nsv s) by (symmetry; exact BN). clear BN. subst V.
  pose proof (at_end _ _ _ H) as L. rewrite !zlen_cons in L. pose proof (zlen_nonneg l). pose proof (zlen_nonneg x).
  assert (EQ : forall X, bind (attrValNs cf) (fun _ => writeVtdWithLengthCheck cf TokAttrVal AttrValueTooLong ;;; modify (set_isXml false) ;;; modify (set_isNs false) ;;; nextChar cf ;;;
    rest cf valL (attrValClose cf)) (set_len1 (zlen x) (adv (pv + zlen x + 1) (b2z q) s)) = X -> processAttrVal cf s = X).
  { intros X K. unfold processAttrVal. run. rewrite Hc.
    eapply bind_eq; [apply (valLoop_ok cf HE q x Hq Hx (fuel cf) s (c :: l) B1); [rewrite Pr; exact H | exact (at_fuel_app cf _ _ _ H)]|].
    run. change (s_inc s = 1) in B2. rewrite B2, Pr, Hl. replace (pv + zlen x + 1 - pv - 1) with (zlen x) by lia. exact K. }
  set (s1 := set_len1 _ _) in EQ.
  pose proof (valNs_ok k names a s1 (q :: c :: l) NV (conj B4 B2) Hxm Hn Hdf eq_refl ltac:(change (s_last s1) with (s_last s); rewrite Hl; exact H) ltac:(discriminate) HB) as VN.
  destruct (declare k a) as [k'| |]; [|intros u s' K; rewrite (EQ _ eq_refl) in K; revert K; apply never_bind; exact VN | exact I].
  destruct VN as (V' & EN & R' & RV). fold nm in R'.
  assert (TB : Base V' ts (set_isXml false (set_isNs false (nsPut V' s1)))) by exact (base_put cf (nsv s) V' ts (set_isXml false (set_isNs false s1)) B).
  assert (E1 : s_len1 s1 = zlen x) by reflexivity.
  destruct (@lengthCheck_ok cf V' 4 AttrValueTooLong (set_isXml false (set_isNs false (nsPut V' s1))) ts TB) as (kb & Ek & Bk); [lia | change (0 <= s_last s < 2^31); lia | change (0 <= zlen x <= max_token); lia |].
  assert (Ek' : writeVtdWithLengthCheck cf TokAttrVal AttrValueTooLong (nsPut V' s1) = ROk tt (set_vtd kb (nsPut V' s1))).
  { revert Ek. unfold writeVtdWithLengthCheck. rewrite !bind_get. cbv beta. set (s2 := nsPut V' s1). set (s3 := set_isXml false (set_isNs false s2)).
    change (s_single s3) with (s_single s2). assert (Es : s_single s2 = true) by exact B3. change (s_single s2) with (s_single s2). rewrite Es.
    change (s_len1 s3) with (s_len1 s2). destruct (maxTokenLength <? s_len1 s2); [intros K; destruct (parseErr_not _ _ _ _ K)|].
    unfold writeVtd, appendTo. change (s_vtd s3) with (s_vtd s2). change (s_last s3) with (s_last s2). change (s_depth s3) with (s_depth s2).
    destruct (bappend (s_vtd s2) _) as [kb' [[]|e|w]]; try discriminate. intros K. assert (kb' = kb) as ->; [|reflexivity].
    assert (KK : forall s4, s_vtd s4 = kb' -> ROk tt s4 = ROk tt (set_vtd kb s3) -> kb' = kb) by (intros s4 <- K4; injection K4 as ->; reflexivity). exact (KK (set_vtd kb' s3) eq_refl K). }
  eexists. exists V'. split; [apply EQ; eapply bind_eq; [exact EN|]; eapply bind_eq; [exact Ek'|]; rewrite !bind_modify;
    eapply (ok_nextChar cf HE _ c l); [exact B1 | change (At (pv + zlen x + 1) (c :: l)); exact (At_app_cons cf _ _ _ _ H)|]; intros _; reflexivity|].
  change (s_last (set_isXml false (set_isNs false (nsPut V' s1)))) with (s_last s) in Bk. change (s_depth (set_isXml false (set_isNs false (nsPut V' s1)))) with (s_depth s) in Bk.
  change (s_len1 (set_isXml false (set_isNs false (nsPut V' s1)))) with (zlen x) in Bk. change (s_depth s = depth st) in D. rewrite Hl, D in Bk.
  split; [|split; [split; reflexivity|split; [reflexivity|split; [exact R' | exact RV]]]].
  split; [exact Bk|]. split; [exact D|]. split; [exact Tg|]. split; [exact L2|]. split; [reflexivity|]. split; [exact AC | exact NM].
Qed.
End Attr.
