(** Start tags with namespace awareness. *)
From Verif Require Import Lib XmlChar XmlCharProofs Buffer BufferProofs Reader ParserState ParserPrim ParserProc ParserMain
  SpecParse SpecChar SpecDoc SpecScope ParserWp ParserInv ParserInvTag ParserInvMain TokenProofs SpecToken RelAware DocScan DocBase DocGap DocTag NsBase NsUrl NsLoop.

Definition nsPut (V : nsview) (s : pst) : pst :=
  set_ns1 (@v_ns1 V) (set_ns2 (@v_ns2 V) (set_ns3 (@v_ns3 V) (set_rec (@v_rec V) (set_prefNames (@v_prefNames V) (set_prefCount (@v_prefCount V) (set_prefUrls (@v_prefUrls V) s)))))).
Lemma nsv_put V s : nsv (nsPut V s) = V.
Proof. destruct V. reflexivity. Qed.
Lemma nsPut_self s : nsPut (nsv s) s = s.
Proof. reflexivity. Qed.
Lemma nbuf_resize log n m : (log = [] -> m = 0) -> setSize (nbuf log n) m = nbuf log m.
Proof. destruct log; [intros H; rewrite H by reflexivity; reflexivity | reflexivity]. Qed.

Section Tag.
Variable cf : cfg.
Variable fin : nat -> M unit.
Notation doc := (c_doc cf).
Hypothesis HE : c_end cf = zlen doc.
Hypothesis HD : zlen doc < 2^31.
Hypothesis HN : c_ns cf = true.
Hypothesis Hap : forall i, znth doc i = Some x26 -> znth doc (i + 1) = Some x61 -> znth doc (i + 2) = Some x70 -> znth doc (i + 3) = Some x3b -> False.
Hypothesis Haos : forall i, znth doc i = Some x26 -> znth doc (i + 1) = Some x61 -> znth doc (i + 2) = Some x6f -> znth doc (i + 3) = Some x73 ->
  znth doc (i + 4) = Some x3b -> False.
Local Notation At := (DocScan.At cf).
Local Notation Rep := (NsBase.Rep cf).
Local Notation Base V := (@DocBase.Base cf V).
Local Notation Tagged V := (@DocBase.Tagged cf V).
Local Notation Quiet V := (@DocBase.Quiet cf V).

Lemma base_put V V' ts s : Base V ts s -> Base V' ts (nsPut V' s).
Proof.
  intros (B1 & B2 & B3 & B4 & B5 & B6 & B7 & B8 & B9 & BN & BX). repeat (split; [assumption|]). split; [apply nsv_put | exact BX].
Qed.
Lemma tagged_put V V' names st ts s : Tagged V names st ts s -> Tagged V' names st ts (nsPut V' s).
Proof. intros (B & D & T & L & I & A & N). split; [exact (base_put _ _ _ _ B)|]. repeat (split; [assumption|]). exact N. Qed.
Lemma tagged_nsv V names st ts s : Tagged V names st ts s -> nsv s = V.
Proof. intros ((_ & _ & _ & _ & _ & _ & _ & _ & _ & H & _) & _). exact H. Qed.

Lemma parseErrAt_not {A} msg o s (a : A) s' : parseErrAt cf msg o s <> ROk a s'.
Proof. unfold parseErrAt, bind. destruct (fmtCustomLine cf o s); discriminate. Qed.

(** ** The end of a start tag *)
Definition recOk (j n : list byte) (v : Z) : Prop :=
  exists o c r, At o (n ++ c :: r) /\ ~ name_char c /\ 0 <= prefix_from (zlen j + 1) n <= zlen n /\ prefix_from (zlen j + 1) n < 2^10 /\ zlen n < 2^11 /\
    v = if has_prefix j n then declWord (prefix_from (zlen j + 1) n + 1) (zlen n) o else 0.
Definition nsElem : M unit := r <- get s_rec ;; (if r =? 0 then ret tt else qualifyElement cf).
Lemma elem_ok j n s log decls m : recOk j n (s_rec s) -> s_ns3 s = nbuf log m -> Forall2 (declEntry cf) log decls -> 0 <= m <= 64 -> m <= zlen decls ->
  s_inc s = 1 -> s_enc s = 0 ->
  if negb (has_prefix j n) || member (tag_prefix j n) (firstn (Z.to_nat m) decls) || xml_tag j n then nsElem s = ROk tt s else never (nsElem s).
Proof.
  intros (o & c & r & HA & Hc & HP & H1 & H2 & HR) E3 F Hm Hd Hi He. unfold nsElem.
  assert (EQ : bind (get s_rec) (fun r => if r =? 0 then ret tt else qualifyElement cf) s = (if s_rec s =? 0 then ret tt else qualifyElement cf) s) by reflexivity.
  rewrite EQ. clear EQ. change (s_rec s) with (s_rec s). rewrite HR. pose proof (proj1 HA) as Ho. pose proof (At_len _ _ _ HA) as Hl. rewrite zlen_app, zlen_cons in Hl.
  pose proof (zlen_nonneg n). pose proof (zlen_nonneg r).
  destruct (has_prefix j n) eqn:Eh; cbn [negb orb]; [|reflexivity]. set (pf := prefix_from (zlen j + 1) n) in *.
  rewrite declWord_eq by lia. destruct (Z.eqb_spec (((pf + 1) * 2^16 + zlen n) * 2^32 + o) 0) as [K|_]; [lia|].
  unfold qualifyElement. rewrite !bind_get. cbv beta zeta. change (s_rec s) with (s_rec s). rewrite HR. destruct (recWord_parts (pf + 1) (zlen n) o) as [P1 P2]; [lia..|]. rewrite P1, P2.
  assert (Lt : zlen (tag_prefix j n) = pf) by (unfold tag_prefix, zlen in *; fold pf; rewrite firstn_length; unfold zlen in *; lia).
  assert (Es : b_size (s_ns3 s) = m).
  { rewrite E3. apply nbuf_size. intros ->. inversion F. subst. change (zlen (@nil (list byte))) with 0 in Hd. lia. }
  assert (HA' : At o (tag_prefix j n ++ skipn (Z.to_nat pf) n ++ c :: r)) by (unfold tag_prefix; fold pf; rewrite app_assoc, firstn_skipn; exact HA).
  pose proof (qualElem_ok cf HD (tag_prefix j n) _ log decls m s F E3 ltac:(lia) Hd Hi (Z.to_nat m) o ltac:(lia) HA' ltac:(lia)) as Q.
  rewrite Lt in Q. replace (Z.of_nat (Z.to_nat m) - 1) with (m - 1) in Q by lia.
  assert (Q' : qualifyElementLoop cf (Z.to_nat (b_size (s_ns3 s))) (b_size (s_ns3 s) - 1) (pf + 1) o s = ROk (member (tag_prefix j n) (firstn (Z.to_nat m) decls)) s) by (rewrite Es; exact Q).
  destruct (member (tag_prefix j n) (firstn (Z.to_nat m) decls)); cbn [orb].
  - eapply bind_eq; [exact Q'|]. reflexivity.
  - pose proof (checkXml_ok cf n o c r (pf + 1) true s He HA Hc) as X. cbn [negb orb] in X.
    unfold xml_tag. fold pf. replace (pf =? 3) with (pf + 1 =? 4) by lia. replace (pf =? 7) with (pf + 1 =? 8) by lia.
    destruct (_ && _).
    + eapply bind_eq; [exact Q'|]. cbv iota. eapply bind_eq; [exact X|]. reflexivity.
    + eapply never_then; [exact Q'|]. cbv iota. eapply never_then; [exact X|]. intros a s' K. exact (parseErrAt_not _ _ _ _ _ K).
Qed.
Lemma in_size k us V : Rep k us V -> forall log, Forall2 (declEntry cf) log (g_decls k) -> log = [] -> g_in k = 0.
Proof.
  intros R log F E. subst log. pose proof (rep_in _ _ _ _ R) as H. destruct (g_decls k); [|inversion F]. change (zlen (@nil (list byte))) with 0 in H. lia.
Qed.
Definition left_scope (k : scope) : scope := Scope (g_tags k ++ [g_in k]) (g_level k + 1) (g_decls k) (g_in k).
Lemma appendNs1_ok k us s : Rep k us (nsv s) -> g_level k < 64 ->
  exists b, appendNs1 s = ROk tt (set_ns1 b s) /\ b = nbuf (map (fun c => c - 1) (g_tags (left_scope k))) (g_level (left_scope k)).
Proof.
  intros R Hl. pose proof (rep_level _ _ _ _ R) as (L1 & L2 & L3). pose proof (rep_in _ _ _ _ R) as (I1 & I2). pose proof (rep_ns1 _ _ _ _ R) as E1. cbn in E1.
  destruct (rep_ns3 _ _ _ _ R) as (log & E3 & F3). cbn in E3.
  unfold appendNs1. rewrite bind_get. cbv beta. change (s_ns3 s) with (s_ns3 s). rewrite E3.
  rewrite nbuf_size by exact (in_size _ _ _ R _ F3).
  rewrite wrap32_id by lia. eexists. split; [|reflexivity]. apply appendTo_eq. change (s_ns1 s) with (s_ns1 s). rewrite E1. unfold left_scope. cbn [g_tags g_level]. rewrite map_app. cbn [map].
  apply nbuf_append; [|intros K; apply L3; intros K2; rewrite K2 in K; apply K; reflexivity | exact Hl].
  intros K. apply map_eq_nil in K. rewrite K in L2. change (zlen (@nil Z)) with 0 in L2. lia.
Qed.
Lemma rep_left k us us' V : Rep k us V -> g_level k < 64 -> forall V', @v_ns1 V' = nbuf (map (fun c => c - 1) (g_tags (left_scope k))) (g_level (left_scope k)) ->
  @v_ns2 V' = @v_ns2 V -> @v_ns3 V' = @v_ns3 V -> @v_prefNames V' = @v_prefNames V -> @v_prefCount V' = zlen us' -> us' = [] ->
  (exists l, @v_prefUrls V' = @v_prefUrls V ++ l) -> Rep (left_scope k) us' V'.
Proof.
  intros [R1 R2 R3 R4 R5 R6 R7 R8 R9] Hl V' E1 E2 E3 E4 E5 -> (l & E6). constructor; cbn [left_scope g_tags g_level g_decls g_in].
  - pose proof (zlen_nonneg (g_tags k)). rewrite zlen_app. change (zlen [g_in k]) with 1. split; [lia|]. split; [lia|]. intros _. lia.
  - apply Forall_app. split; [exact R2|]. constructor; [lia | constructor].
  - exact R3.
  - exact E1.
  - rewrite E2. exact R5.
  - rewrite E3. exact R6.
  - exact E5.
  - rewrite E4. split; [apply R8|]. intros i nm K. destruct i; discriminate K.
  - intros i Hi. rewrite E6, znth_app1; [apply R9, Hi|]. pose proof (znth_range _ _ _ (R9 255 ltac:(lia))). lia.
Qed.

(** What the two ways to close a start tag do with the namespaces. *)
Definition nsStart : M unit := appendNs1 ;;; nsElem.
Definition nsEnd : M unit :=
  appendNs1 ;;;
  n <- get s_prefCount ;;
  (if 0 <? n then qualifyAttributes cf else ret tt) ;;;
  (if 0 <? n then checkQualifiedAttributeUniqueness cf else ret tt) ;;;
  nsElem ;;;
  modify (set_prefCount 0).
Lemma nsStart_ok j n k s : Rep k [] (nsv s) -> recOk j n (s_rec s) -> s_inc s = 1 -> s_enc s = 0 ->
  match leave j n [] k with
  | Fine k' => exists V', nsStart s = ROk tt (nsPut V' s) /\ Rep k' [] V'
  | Refused => never (nsStart s)
  | Beyond => True
  end.
Proof.
  intros R HR Hi He. unfold leave, page. destruct (Z.leb_spec 64 (g_level k)); [exact I|].
  destruct (appendNs1_ok k [] s R H) as (b & EA & Eb). destruct (rep_ns3 _ _ _ _ R) as (log & E3 & F3). cbn in E3. pose proof (rep_in _ _ _ _ R) as (I1 & I2).
  pose proof (elem_ok j n (set_ns1 b s) log (g_decls k) (g_in k) HR E3 F3 I1 I2 Hi He) as Q.
  unfold qualified, covered. cbn [map forallb all_distinct andb]. unfold in_scope.
  destruct (negb (has_prefix j n) || member (tag_prefix j n) (firstn (Z.to_nat (g_in k)) (g_decls k)) || xml_tag j n).
  - exists (nsv (set_ns1 b s)). split; [unfold nsStart; eapply bind_eq; [exact EA|]; exact Q|].
    eapply rep_left; [exact R | exact H | exact Eb | reflexivity.. | exact (rep_count _ _ _ _ R) | reflexivity | exists []; rewrite app_nil_r; reflexivity].
  - eapply never_then; [exact EA | exact Q].
Qed.
Lemma distinct_nil : all_distinct (map local_of []) = true.
Proof. reflexivity. Qed.
Lemma users_bound k us V : Rep k us V -> zlen us <= 256.
Proof.
  intros R. destruct (rep_names _ _ _ _ R) as (L & P). destruct (Z.le_gt_cases (zlen us) 256) as [|K]; [assumption|]. exfalso.
  destruct (nth_error us 256) as [nm|] eqn:E; [|apply nth_error_None in E; unfold zlen in K; lia].
  destruct (P 256%nat nm E) as (e & He & _). apply znth_range in He. lia.
Qed.
Lemma nsEnd_ok j n k us s : Rep k us (nsv s) -> recOk j n (s_rec s) -> plain s ->
  match leave j n us k with
  | Fine k' => exists V', nsEnd s = ROk tt (nsPut V' s) /\ Rep k' [] V'
  | Refused => never (nsEnd s)
  | Beyond => True
  end.
Proof.
  intros R HR HP. pose proof HP as (He & Hi). unfold leave, page. destruct (Z.leb_spec 64 (g_level k)) as [|H]; [exact I|].
  destruct (appendNs1_ok k us s R H) as (b & EA & Eb). destruct (rep_ns3 _ _ _ _ R) as (log & E3 & F3). cbn in E3. pose proof (rep_in _ _ _ _ R) as (I1 & I2).
  pose proof (rep_count _ _ _ _ R) as HC. cbn in HC. pose proof (users_bound _ _ _ R) as Hu. pose proof (rep_names _ _ _ _ R) as (_ & HPn). cbn in HPn.
  set (s1 := set_ns1 b s) in *.
  assert (EN : exists l, if forallb (fun nm => member (prefix_of nm) (in_scope k)) us && all_distinct (map local_of us) then
      bind (if 0 <? zlen us then qualifyAttributes cf else ret tt) (fun _ => if 0 <? zlen us then checkQualifiedAttributeUniqueness cf else ret tt) s1 = ROk tt (set_prefUrls (s_prefUrls s ++ l) s1)
    else never (bind (if 0 <? zlen us then qualifyAttributes cf else ret tt) (fun _ => if 0 <? zlen us then checkQualifiedAttributeUniqueness cf else ret tt) s1)).
  { destruct us as [|u us'] eqn:Eus; [exists []; cbn; rewrite app_nil_r; reflexivity|]. rewrite <- Eus in *. assert (Hpos : 0 < zlen us) by (rewrite Eus, zlen_cons; pose proof (zlen_nonneg us'); lia).
    destruct (Z.ltb_spec 0 (zlen us)) as [_|]; [|lia].
    assert (Es : b_size (s_ns3 s1) = g_in k) by (change (s_ns3 s1) with (s_ns3 s); rewrite E3; apply nbuf_size; apply (in_size _ _ _ R _ F3)).
    pose proof (qualAttrs_ok cf log (g_decls k) (g_in k) F3 I1 I2 us 0 s1 E3 Es Hi HPn) as Q. fold (in_scope k) in Q.
    assert (QE : qualifyAttributes cf s1 = qualifyAttrsLoop cf (length us) 0 s1).
    { unfold qualifyAttributes. rewrite bind_get. cbv beta. change (s_prefCount s1) with (s_prefCount s). rewrite HC. unfold zlen. rewrite Nat2Z.id. reflexivity. }
    destruct (forallb (fun nm => member (prefix_of nm) (in_scope k)) us) eqn:Ef; cbn [andb].
    2: { exists []. apply never_bind. rewrite QE. exact Q. }
    destruct Q as (l & Q). exists l. rewrite <- QE in Q. set (s2 := set_prefUrls (s_prefUrls s1 ++ l) s1) in *.
    (* the first declaration has a URL *)
    assert (Hin : 0 < g_in k /\ g_decls k <> []).
    { rewrite Eus in Ef. cbn [forallb] in Ef. apply andb_true_iff in Ef. destruct Ef as [Ef _]. apply member_true in Ef. unfold in_scope in Ef.
      destruct (g_decls k) as [|d ds]; [rewrite firstn_nil in Ef; contradiction|]. destruct (Z.to_nat (g_in k)) eqn:En; [contradiction|]. split; [lia | discriminate]. }
    destruct (rep_ns2 _ _ _ _ R) as (log2 & E2 & L2 & P2). cbn in E2. destruct log2 as [|e0 log2].
    { change (zlen (@nil Z)) with 0 in L2. destruct (g_decls k) as [|d0 ds]; [destruct Hin; congruence|]. rewrite zlen_cons in L2. pose proof (zlen_nonneg ds). lia. }
    specialize (P2 e0 log2 eq_refl).
    assert (EU : forall i, 0 <= i < 0 + zlen us -> urlOf i s2 = ROk (upper32 e0, lower32 e0) s2).
    { intros i Hi'. unfold urlOf.
      assert (EP : prefUrlAt i s2 = ROk 0 s2).
      { unfold prefUrlAt. change (s_prefUrls s2) with (s_prefUrls s ++ l). pose proof (rep_urls _ _ _ _ R i ltac:(lia)) as RU. cbn in RU.
        rewrite znth_app1; [rewrite RU; reflexivity | apply (znth_range _ _ _ RU)]. }
      eapply bind_eq; [exact EP|]. rewrite bind_get. change (s_ns2 s2) with (s_ns2 s).
      assert (EL : longAt (s_ns2 s) 0 = Ok e0) by (rewrite E2; apply nbuf_at; [apply Hin | lia | reflexivity]).
      unfold lower32At, upper32At. rewrite EL. reflexivity. }
    pose proof (outer_ok cf HD Hap Haos (upper32 e0, lower32 e0) s2 (zlen us) P2 HP us 0 ltac:(lia) ltac:(lia) HPn EU) as O.
    assert (QU : checkQualifiedAttributeUniqueness cf s2 = qualUniqueOuter cf (length us) 0 (zlen us) s2).
    { unfold checkQualifiedAttributeUniqueness. rewrite bind_get. cbv beta. change (s_prefCount s2) with (s_prefCount s). rewrite HC. unfold zlen. rewrite Nat2Z.id. reflexivity. }
    destruct (all_distinct (map local_of us)).
    - eapply bind_eq; [exact Q|]. rewrite QU. exact O.
    - eapply never_then; [exact Q|]. rewrite QU. exact O. }
  destruct EN as (l & EN).
  assert (EQ : forall R, bind (bind (if 0 <? zlen us then qualifyAttributes cf else ret tt) (fun _ => if 0 <? zlen us then checkQualifiedAttributeUniqueness cf else ret tt))
      (fun _ => nsElem ;;; modify (set_prefCount 0)) s1 = R -> nsEnd s = R).
  { intros R0 K. unfold nsEnd. eapply bind_eq; [exact EA|]. rewrite bind_get. cbv beta. fold s1. change (s_prefCount s1) with (s_prefCount s). rewrite HC. rewrite bind_assoc in K. exact K. }
  unfold qualified, covered. destruct (forallb _ us && all_distinct _); cbn [andb].
  - set (s2 := set_prefUrls (s_prefUrls s ++ l) s1) in *.
    pose proof (elem_ok j n s2 log (g_decls k) (g_in k) HR E3 F3 I1 I2 Hi He) as Q. unfold in_scope.
    destruct (negb (has_prefix j n) || member (tag_prefix j n) (firstn (Z.to_nat (g_in k)) (g_decls k)) || xml_tag j n).
    + exists (nsv (set_prefCount 0 s2)). split; [apply EQ; eapply bind_eq; [exact EN|]; eapply bind_eq; [exact Q|]; reflexivity|].
      eapply rep_left; [exact R | exact H | exact Eb | reflexivity.. | exists l; reflexivity].
    + intros a s' K. rewrite (EQ _ eq_refl) in K. revert K. eapply never_then; [exact EN|]. apply never_bind. exact Q.
  - intros a s' K. rewrite (EQ _ eq_refl) in K. revert K. apply never_bind. exact EN.
Qed.
End Tag.
