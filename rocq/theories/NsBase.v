(** The namespace buffers against the lists of SpecScope.v. *)
From Verif Require Import Lib XmlChar XmlCharProofs Buffer BufferProofs Reader ParserState ParserPrim ParserProc ParserMain
  SpecParse SpecChar SpecDoc SpecScope ParserWp ParserInv ParserInvTag ParserInvMain TokenProofs SpecToken DocScan DocBase DocGap DocTag.

(** ** Buffers that only grow, read up to a size *)
Definition nbuf (log : list Z) (n : Z) : pbuf Z :=
  match log with [] => mkBuf [] 0 0 6 63 64 | _ => mkBuf [log] 64 n 6 63 64 end.
Lemma nbuf_size log n : (log = [] -> n = 0) -> b_size (nbuf log n) = n.
Proof. destruct log; cbn; [intros H; rewrite H; reflexivity | reflexivity]. Qed.
Lemma nbuf_set log n m : log <> [] -> setSize (nbuf log n) m = nbuf log m.
Proof. destruct log; [congruence | reflexivity]. Qed.
Lemma nbuf_append log n v : (log = [] -> n = 0) -> (log <> [] -> 0 < n) -> n < 64 -> bappend (nbuf log n) v = (nbuf (log ++ [v]) (n + 1), Ok tt).
Proof.
  intros H0 H1 Hn. destruct log as [|x log]; [rewrite H0 by reflexivity; reflexivity|]. specialize (H1 ltac:(discriminate)).
  unfold bappend, nbuf. cbn [app b_size b_cap b_exp b_pages]. destruct (Z.ltb_spec n 64); [|lia].
  assert (Z.shiftr n 6 = 0) as -> by (rewrite Z.shiftr_div_pow2 by lia; apply Z.div_small; lia).
  unfold bget, bset, setSize. cbn [b_size b_pages]. change (0 <? 0) with false. cbn [orb].
  destruct (Z.leb_spec n 0); [lia|]. change (znth [x :: log] 0) with (Some (x :: log)). cbv iota. cbn [b_size b_pages b_cap b_exp b_r b_psize].
  destruct (Z.leb_spec (n + 1) 0); [lia|]. reflexivity.
Qed.
Lemma nbuf_stale log v : log <> [] -> exists e, snd (bappend (nbuf log 0) v) = Err e.
Proof.
  intros H. destruct log as [|x log]; [congruence|]. eexists. reflexivity.
Qed.
Lemma nbuf_at (w : goerr -> goerr) log n i v : 0 < n -> 0 <= i < 64 -> znth log i = Some v -> bat w (nbuf log n) i = Ok v.
Proof.
  intros Hn Hi H. destruct log as [|x log]; [apply znth_range in H; change (zlen (@nil Z)) with 0 in H; lia|].
  unfold bat, nbuf. cbn [b_exp b_r b_size b_pages].
  assert (Z.shiftr i 6 = 0) as -> by (rewrite Z.shiftr_div_pow2 by lia; apply Z.div_small; lia).
  assert (Z.land i 63 = i) as -> by (change 63 with (Z.ones 6); rewrite Z.land_ones by lia; apply Z.mod_small; lia).
  unfold bget. cbn [b_size b_pages]. change (0 <? 0) with false. cbn [orb]. destruct (Z.leb_spec n 0); [lia|].
  change (znth [x :: log] 0) with (Some (x :: log)). cbv iota. pose proof (znth_range _ _ _ H). destruct (Z.ltb_spec i 0); [lia|]. destruct (Z.leb_spec (zlen (x :: log)) i); [lia|].
  cbn [orb]. rewrite H. reflexivity.
Qed.

(** ** Words *)
Lemma land_range e : forall a b c, 0 <= a -> 0 <= b < 2^16 -> 0 <= c < 2^16 -> e = a * 2^32 + b * 2^16 + c -> Z.shiftr (Z.land e 0xFFFF0000) 16 = b.
Proof.
  intros a b c Ha Hb Hc ->. rewrite Z.shiftr_land. change (Z.shiftr 4294901760 16) with (Z.ones 16). rewrite Z.land_ones by lia. rewrite Z.shiftr_div_pow2 by lia. lia.
Qed.
Definition declWord (l2 l1 o : Z) : Z := Z.lor (shl64 (Z.lor (shl64 l2 16) l1) 32) o.
Lemma declWord_eq l2 l1 o : 0 <= l2 < 2^11 -> 0 <= l1 < 2^16 -> 0 <= o < 2^31 -> declWord l2 l1 o = (l2 * 2^16 + l1) * 2^32 + o.
Proof.
  intros H2 H1 Ho. unfold declWord. rewrite (shl64_mul l2 16) by lia. rewrite (lor_disjoint l2) by lia. rewrite shl64_mul by lia. rewrite lor_disjoint by lia. reflexivity.
Qed.
Lemma declWord_upper l2 l1 o : 0 <= l2 < 2^11 -> 0 <= l1 < 2^16 -> 0 <= o < 2^31 -> upper32 (declWord l2 l1 o) = l2 * 2^16 + l1.
Proof.
  intros H2 H1 Ho. rewrite declWord_eq by lia. unfold upper32. rewrite Z.shiftr_land. change (Z.shiftr (Z.shiftl 0xFFFFFFF 32) 32) with (Z.ones 28).
  rewrite Z.land_ones by lia. rewrite Z.shiftr_div_pow2 by lia. unfold wrap32. lia.
Qed.
Lemma declWord_lower l2 l1 o : 0 <= l2 < 2^11 -> 0 <= l1 < 2^16 -> 0 <= o < 2^31 -> lower32 (declWord l2 l1 o) = o.
Proof. intros H2 H1 Ho. rewrite declWord_eq by lia. unfold lower32, wrap32. lia. Qed.
Lemma upper_parts l2 l1 : 0 <= l2 < 2^11 -> 0 <= l1 < 2^16 -> Z.land (l2 * 2^16 + l1) 0xFFFF = l1 /\ Z.shiftr (l2 * 2^16 + l1) 16 = l2.
Proof.
  intros H2 H1. change 0xFFFF with (Z.ones 16). rewrite Z.land_ones by lia. rewrite Z.shiftr_div_pow2 by lia. split; lia.
Qed.
Lemma recWord_parts l2 l1 o : 0 <= l2 < 2^11 -> 0 <= l1 < 2^16 -> 0 <= o < 2^31 ->
  wrap32 (Z.shiftr (Z.land (declWord l2 l1 o) 0xFFFF00000000000) 48) = l2 /\ wrap32 (declWord l2 l1 o) = o.
Proof.
  intros H2 H1 Ho. rewrite declWord_eq by lia. split; [|unfold wrap32; lia]. rewrite Z.shiftr_land. change (Z.shiftr 0xFFFF00000000000 48) with (Z.ones 12).
  rewrite Z.land_ones by lia. rewrite Z.shiftr_div_pow2 by lia. unfold wrap32. lia.
Qed.
Definition prefWord (o l2 l1 : Z) : Z := Z.lor (Z.lor (shl64 o 32) (shl64 l2 16)) l1.
Lemma prefWord_parts o l2 l1 : 0 <= l2 < 2^11 -> 0 <= l1 < 2^16 -> 0 <= o < 2^31 ->
  prefLen (prefWord o l2 l1) = l2 /\ prefOs (prefWord o l2 l1) = o /\ prefQn (prefWord o l2 l1) = l1.
Proof.
  intros H2 H1 Ho. assert (E : prefWord o l2 l1 = o * 2^32 + l2 * 2^16 + l1).
  { unfold prefWord. rewrite (shl64_mul o), (shl64_mul l2) by lia. rewrite (lor_disjoint o) by lia.
    replace (o * 2^32 + l2 * 2^16) with ((o * 2^16 + l2) * 2^16) by lia. rewrite lor_disjoint by lia. lia. }
  unfold prefLen, prefOs, prefQn. split; [|split].
  - rewrite (land_range _ o l2 l1) by lia. unfold wrap32. lia.
  - rewrite E, Z.shiftr_div_pow2 by lia. unfold wrap32. lia.
  - rewrite E. change 0xFFFF with (Z.ones 16). rewrite Z.land_ones by lia. unfold wrap32. lia.
Qed.

(** ** Names *)
Lemma same_true a b : same a b = true <-> a = b.
Proof. unfold same. destruct (list_eq_dec byte_eq_dec a b); split; congruence. Qed.
Lemma same_is a b : same a b = same_bytes a b.
Proof. reflexivity. Qed.
Lemma member_true x l : member x l = true <-> In x l.
Proof.
  unfold member. rewrite existsb_exists. split; [intros (y & Hy & E); apply same_true in E; subst y; exact Hy|]. intros H. exists x. split; [exact H | apply same_true; reflexivity].
Qed.
Lemma starts_firstn p : forall l, starts p l = same (firstn (length p) l) p.
Proof.
  induction p as [|a p IH]; intros [|b l]; cbn [starts length firstn]; try reflexivity. rewrite IH.
  unfold same. destruct (Byte.eqb a b) eqn:E.
  - apply Byte.byte_dec_bl in E. subst b. cbn [andb]. destruct (list_eq_dec _ _ p), (list_eq_dec _ (a :: _) (a :: p)); try congruence; reflexivity.
  - cbn [andb]. destruct (list_eq_dec _ (b :: _) (a :: p)); [|reflexivity]. exfalso. assert (a = b) by congruence. subst b. rewrite byte_dec_lb in E; congruence.
Qed.
Lemma colon_bound i acc x : 0 <= i -> 0 <= acc <= i -> acc < last_colon i acc x -> last_colon i acc x < i + zlen x.
Proof.
  revert i acc. induction x as [|b x IH]; intros i acc Hi Ha; cbn [last_colon]; [lia|]. rewrite zlen_cons. pose proof (zlen_nonneg x).
  destruct (Byte.eqb b x3a).
  - intros _. destruct (Z.lt_ge_cases i (last_colon (i + 1) i x)); [specialize (IH (i + 1) i); lia | lia].
  - intros H1. specialize (IH (i + 1) acc). lia.
Qed.
Lemma prefix_range nm : nm <> [] -> 0 <= prefix_from 1 nm < zlen nm.
Proof.
  intros H. destruct nm as [|b t]; [congruence|]. change (prefix_from 1 (b :: t)) with (last_colon 1 0 t). rewrite zlen_cons. pose proof (zlen_nonneg t).
  pose proof (last_colon_bound t 1 0 ltac:(lia) ltac:(lia)). pose proof (colon_bound 1 0 t ltac:(lia) ltac:(lia)). lia.
Qed.
Lemma local_len nm : nm <> [] -> zlen (local_of nm) = zlen nm - prefix_from 1 nm - 1.
Proof. intros H. pose proof (prefix_range nm H). unfold local_of, zlen in *. rewrite skipn_length. lia. Qed.
Lemma prefix_len nm : nm <> [] -> zlen (prefix_of nm) = prefix_from 1 nm.
Proof. intros H. pose proof (prefix_range nm H). unfold prefix_of, zlen in *. rewrite firstn_length. lia. Qed.

Section Ns.
Variable cf : cfg.
Notation doc := (c_doc cf).
Hypothesis HE : c_end cf = zlen doc.
Hypothesis HD : zlen doc < 2^31.
Local Notation At := (DocScan.At cf).

Lemma At_skip p a r k : At p (a ++ r) -> 0 <= k <= zlen a -> At (p + k) (skipn (Z.to_nat k) a ++ r).
Proof.
  intros H Hk. rewrite <- (firstn_skipn (Z.to_nat k) a), <- app_assoc in H. apply (At_app cf) in H.
  replace (zlen (firstn (Z.to_nat k) a)) with k in H; [exact H|]. unfold zlen in *. rewrite firstn_length. lia.
Qed.
(** [matchAt] in a name that is followed by a byte that does not occur in the pattern *)
Lemma matchAt_ok pat : forall x p c r s, At p (x ++ c :: r) -> ~ In c pat -> matchAt cf p (map b2z pat) s = ROk (starts pat x) s.
Proof.
  induction pat as [|a pat IH]; intros x p c r s H Hc; cbn [map matchAt starts]; [reflexivity|].
  destruct x as [|b x]; cbn [app] in H.
  - eapply ok_idx; [exact H|]. rewrite b2z_eqb. destruct (Byte.eqb c a) eqn:E; [|reflexivity]. apply Byte.byte_dec_bl in E. subst. exfalso. apply Hc. left. reflexivity.
  - eapply ok_idx; [exact H|]. rewrite b2z_eqb. apply (At_cons cf) in H. destruct H as (_ & _ & H).
    assert (Byte.eqb a b = Byte.eqb b a) as ->.
    { destruct (Byte.eqb b a) eqn:E; [apply Byte.byte_dec_bl in E; subst; apply byte_dec_lb; reflexivity|]. destruct (Byte.eqb a b) eqn:E'; [|reflexivity].
      apply Byte.byte_dec_bl in E'. subst. rewrite byte_dec_lb in E; congruence. }
    destruct (Byte.eqb b a); cbn [andb]; [|reflexivity]. eapply IH; [exact H|]. intros K. apply Hc. right. exact K.
Qed.
Lemma not_pat c pat : Forall name_char pat -> ~ name_char c -> ~ In c pat.
Proof. intros F N K. rewrite Forall_forall in F. apply N, F, K. Qed.
Lemma xml_chars : Forall name_char (lit "xmlns") /\ Forall name_char (lit "xml").
Proof. lits. split; repeat (apply Forall_cons; [apply isName_byte; reflexivity|]); apply Forall_nil. Qed.
Lemma checkXml_ok x p c r len ck s : s_enc s = 0 -> At p (x ++ c :: r) -> ~ name_char c ->
  checkXmlPrefix cf p len ck s = ROk (starts (lit "xml") x && (negb ck || ((len =? 4) || (len =? 8)))) s.
Proof.
  intros En H Hc. unfold checkXmlPrefix. rewrite bind_get. cbv beta. change (s_enc s) with (s_enc s). rewrite En. change (0 <? FormatUtf16BE) with true. cbv iota. change [120; 109; 108] with (map b2z (lit "xml")).
  eapply bind_eq; [eapply matchAt_ok; [exact H | apply not_pat; [apply xml_chars | exact Hc]]|]. cbv beta.
  destruct (starts (lit "xml") x), ck; reflexivity.
Qed.
Lemma checkXmlns_ok x p c r len ck s : s_enc s = 0 -> At p (x ++ c :: r) -> ~ name_char c ->
  checkXmlnsPrefix cf p len ck s = ROk (starts (lit "xmlns") x && (negb ck || ((len =? 5) || (len =? 10)))) s.
Proof.
  intros En H Hc. unfold checkXmlnsPrefix. rewrite bind_get. cbv beta. change (s_enc s) with (s_enc s). rewrite En. change (0 <? FormatUtf16BE) with true. cbv iota. change [120; 109; 108; 110; 115] with (map b2z (lit "xmlns")).
  eapply bind_eq; [eapply matchAt_ok; [exact H | apply not_pat; [apply xml_chars | exact Hc]]|]. cbv beta.
  destruct (starts (lit "xmlns") x), ck; reflexivity.
Qed.

(** ** Entries of the buffers *)
Definition declEntry (e : Z) (p : list byte) : Prop :=
  exists l2 o r, e = declWord l2 (l2 + 1 + zlen p) o /\ 0 <= l2 < 2^10 /\ l2 + 1 + zlen p < 2^11 /\ 0 <= o < 2^31 /\ At (o + l2 + 1) (p ++ r).
Definition prefEntry (e : Z) (nm : list byte) : Prop :=
  exists o r, e = prefWord o (prefix_from 1 nm) (zlen nm) /\ nm <> [] /\ prefix_from 1 nm < 2^10 /\ zlen nm < 2^11 /\ 0 <= o < 2^31 /\ At o (nm ++ r).

Record Rep (k : scope) (us : list (list byte)) (V : nsview) : Prop := {
  rep_level : 0 <= g_level k <= 64 /\ g_level k <= zlen (g_tags k) /\ (g_tags k <> [] -> 0 < g_level k);
  rep_tags : Forall (fun c => 0 <= c <= 64 /\ c <= zlen (g_decls k)) (g_tags k);
  rep_in : 0 <= g_in k <= 64 /\ g_in k <= zlen (g_decls k);
  rep_ns1 : @v_ns1 V = nbuf (map (fun c => c - 1) (g_tags k)) (g_level k);
  rep_ns2 : exists log, @v_ns2 V = nbuf log (g_in k) /\ zlen log = zlen (g_decls k) /\ (forall e t, log = e :: t -> 0 < lower32 e);
  rep_ns3 : exists log, @v_ns3 V = nbuf log (g_in k) /\ Forall2 declEntry log (g_decls k);
  rep_count : @v_prefCount V = zlen us;
  rep_names : zlen (@v_prefNames V) = 256 /\ forall i nm, nth_error us i = Some nm -> exists e, znth (@v_prefNames V) (Z.of_nat i) = Some e /\ prefEntry e nm;
  rep_urls : forall i, 0 <= i < 256 -> znth (@v_prefUrls V) i = Some 0 }.
End Ns.
