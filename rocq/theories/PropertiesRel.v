(** Relations between two runs of Parse over the same document: the depth of the
    location cache, and namespace awareness. *)
From Verif Require Import Lib XmlChar Buffer BufferProofs Reader ParserState ParserPrim ParserProc ParserMain SpecParse ParserWp ParserInv ParserInvMain DocScan DocBase ParserOutcome PropertiesParse PropertiesQuirks ParserRel RelDepth RelAware.

(** What a caller sees of New and Parse apart from the location cache: the
    verdict, the error and the exported tokens. *)
Definition same_verdict (o1 o2 : outcome) : Prop :=
  match o1, o2 with
  | NewFailed e1, NewFailed e2 => e1 = e2
  | Parsed s1, Parsed s2 => toArray (s_vtd s1) = toArray (s_vtd s2)
  | Rejected e1 s1, Rejected e2 s2 => e1 = e2 /\ toArray (s_vtd s1) = toArray (s_vtd s2)
  | Panicked w1, Panicked w2 => w1 = w2
  | Diverged, Diverged => True
  | _, _ => False
  end.
(** The five location tables and the root index. *)
Definition same_cache (s1 s2 : pst) : Prop :=
  toArray (s_l1 s1) = toArray (s_l1 s2) /\ toArray (s_l2 s1) = toArray (s_l2 s2) /\ toArray (s_l3 s1) = toArray (s_l3 s2) /\
  toArray (s_l4 s1) = toArray (s_l4 s2) /\ toArray (s_l5 s1) = toArray (s_l5 s2) /\ s_rootIndex s1 = s_rootIndex s2.

(** New with two option lists that name the same window and the same namespace mode. *)
Lemma new_pair o1 o2 : Forall go_value o1 -> Forall go_value o2 -> window_of o1 = window_of o2 ->
  match newVtdParser o1, newVtdParser o2 with
  | Ok (cf1, s1), Ok (cf2, s2) => s1 = graftL s2 s1 /\ lcOk s1 /\ lcOk s2 /\ (shallow_of o1 = shallow_of o2 -> s1 = s2)
  | Err e1, Err e2 => e1 = e2
  | _, _ => False
  end.
Proof.
  intros F1 F2 W. destruct (applyPOpts_spec o1 F1) as (A1 & A2 & A3 & A4 & _ & _ & _ & A5 & A6).
  destruct (applyPOpts_spec o2 F2) as (B1 & B2 & B3 & B4 & _ & _ & _ & B5 & B6).
  rewrite W in A1, A2, A3. unfold newVtdParser. rewrite A1, B1, A2, B2, A3, B3. rewrite A2, A3 in A4. rewrite B2, B3 in B4.
  set (k1 := applyPOpts o1) in *. set (k2 := applyPOpts o2) in *. clearbody k1 k2.
  destruct (window_of o2) as [[[doc|] off] len]; cbn [fst snd] in *; [|reflexivity].
  destruct (zlen doc =? 0); [reflexivity|]. destruct (off <? 0) eqn:Zo; [reflexivity|].
  destruct ((len =? 0) || (zlen doc <? wrap64 (off + len))); [reflexivity|].
  unfold parserInit. rewrite A2, B2, A3, B3, A4, B4, A5, B5, A6, B6.
  destruct (newIntBuf [6]) as [ns1|e|w] eqn:E1; [|vm_compute in E1; discriminate..]. clear E1. cbn [obind].
  destruct (newLongBuf [6]) as [ns2|e|w] eqn:E2; [|vm_compute in E2; discriminate..]. clear E2. cbn [obind].
  destruct (newUtf8Reader (Some doc) off (wrap64 (off + len))) as [r|e|w] eqn:E3; cbn [obind]; [|reflexivity|].
  2:{ unfold newUtf8Reader in E3. rewrite Zo in E3. destruct (_ || _) in E3; discriminate. }
  destruct (newLongBuf_ok _ (vtdExp_range len)) as (vtd & -> & Rv). cbn [obind].
  generalize (shallow_of o1) (shallow_of o2). intros h1 h2.
  destruct (newLongBuf_ok _ (l1Exp_range h1 len)) as (l1 & L1 & R1). rewrite L1. cbn [obind].
  destruct (newLongBuf_ok _ (l2Exp_range h1 len)) as (l2 & L2 & R2). rewrite L2. cbn [obind].
  destruct (newLongBuf_ok _ (l345Exp_range h1 len)) as (l3 & L3 & R3). rewrite L3. cbn [obind].
  destruct (newLongBuf_ok _ (l1Exp_range h2 len)) as (m1 & M1 & S1). rewrite M1. cbn [obind].
  destruct (newLongBuf_ok _ (l2Exp_range h2 len)) as (m2 & M2 & S2). rewrite M2. cbn [obind].
  destruct (newLongBuf_ok _ (l345Exp_range h2 len)) as (m3 & M3 & S3). rewrite M3. cbn [obind].
  split; [reflexivity|]. split; [|split].
  - unfold lcOk, lbOk, initState. psimp. repeat split; eexists; eexists; eassumption.
  - unfold lcOk, lbOk, initState. psimp. repeat split; eexists; eexists; eassumption.
  - intros ->. rewrite L1 in M1. rewrite L2 in M2. rewrite L3 in M3. congruence.
Qed.

(** ** C53: the depth of the location cache changes neither verdict nor tokens. *)
Theorem C53_cache_depth_irrelevant : forall o1 o2, Forall go_value o1 -> Forall go_value o2 ->
  window_of o1 = window_of o2 -> ns_of o1 = ns_of o2 -> same_verdict (runParser o1) (runParser o2).
Proof.
  intros o1 o2 F1 F2 W N. pose proof (new_pair o1 o2 F1 F2 W) as P. pose proof (new_spec o1 F1) as P1. pose proof (new_spec o2 F2) as P2.
  unfold runParser. destruct (newVtdParser o1) as [[cf1 s1]|e1|w1], (newVtdParser o2) as [[cf2 s2]|e2|w2]; try contradiction; [|exact P].
  destruct P1 as (G1 & O1 & L1 & E1 & N1 & _). destruct P2 as (G2 & O2 & L2 & E2 & N2 & _). destruct P as (Q1 & Q2 & Q3 & _).
  assert (Hdoc : c_doc cf1 = c_doc cf2).
  { rewrite W in G1. destruct (window_of o2) as [[d off] len]. destruct G1 as [G1 _], G2 as [G2 _]. congruence. }
  rewrite W in O1, L1. destruct (depth_parse cf1 cf2 Hdoc ltac:(congruence) ltac:(congruence) ltac:(congruence) ltac:(congruence) s1 s2 (conj Q1 (conj Q2 Q3))) as [M|M]; [|contradiction].
  destruct (parse cf1 s1), (parse cf2 s2); cbn in M |- *; try contradiction; [| |exact M|exact I]; destruct M as [M (X & _)].
  - rewrite X. reflexivity.
  - split; [exact M|]. rewrite X. reflexivity.
Qed.
Print Assumptions C53_cache_depth_irrelevant.
Definition c53_doc : list byte := bytes_of "xx<a><b q='1'>t</b><c/></a> yy".
Example C53_example : exists s1 s2, runParser [OCustom (Some c53_doc) 2 25; OLcDepth 3] = Parsed s1 /\
  runParser [OCustom (Some c53_doc) 2 25; OLcDepth 5] = Parsed s2 /\ toArray (s_l1 s1) = Some (Ok []) /\ toArray (s_l1 s2) <> Some (Ok []) /\
  toArray (s_vtd s1) = toArray (s_vtd s2) /\ window_of [OCustom (Some c53_doc) 2 25; OLcDepth 3] = window_of [OCustom (Some c53_doc) 2 25; OLcDepth 5].
Proof.
  eexists _, _. split; [vm_compute; reflexivity|]. split; [vm_compute; reflexivity|]. split; [vm_compute; reflexivity|].
  split; [vm_compute; discriminate|]. split; vm_compute; reflexivity.
Qed.

(** ** C55: namespace awareness only adds rejections *)
(** As stated it is false: a document accepted with namespace awareness and
    rejected without, and one accepted by both with different tokens. *)
Definition ns_run (doc : list byte) : outcome := runParser [OXmlDoc (Some doc); ONs true].
Definition plain_run (doc : list byte) : outcome := runParser [OXmlDoc (Some doc)].
Theorem C55_awareness_refuted :
  (exists doc s1 e s2, ns_run doc = Parsed s1 /\ plain_run doc = Rejected e s2) /\
  (exists doc s1 s2, ns_run doc = Parsed s1 /\ plain_run doc = Parsed s2 /\ toArray (s_vtd s1) <> toArray (s_vtd s2)).
Proof.
  split.
  - exists (bytes_of "<a xmlns:p='&amp;xxxxxxxxxxxxxxxxxxxxxxxxxx'z/>"). eexists _, _, _. split; vm_compute; reflexivity.
  - exists (bytes_of "<a><b xmlns:p='&amp;xxxxxxxxxxxxxxxxxxxxxxxxxx'> c='d'>/></b></a>"). eexists _, _. split; [vm_compute; reflexivity|].
    split; [vm_compute; reflexivity|]. vm_compute. discriminate.
Qed.
Print Assumptions C55_awareness_refuted.

Lemma no_amp_a doc : ~ contains doc [x26; x61] -> forall o, znth doc o = Some x26 -> znth doc (o + 1) <> Some x61.
Proof.
  intros H o H1 H2. apply H. pose proof (znth_range _ _ _ H1) as R1. pose proof (znth_range _ _ _ H2) as R2.
  exists (firstn (Z.to_nat o) doc), (skipn (Z.to_nat (o + 2)) doc).
  rewrite <- (firstn_skipn (Z.to_nat o) doc) at 1. f_equal.
  assert (E : forall i b, znth doc i = Some b -> skipn (Z.to_nat i) doc = b :: skipn (Z.to_nat (i + 1)) doc).
  { intros i b Hi. pose proof (znth_range _ _ _ Hi). unfold znth in Hi. destruct ((i <? 0) || (zlen doc <=? i)) eqn:Z1; [lia|]. rewrite (skipn_nth_cons _ _ _ Hi). do 2 f_equal. lia. }
  rewrite (E _ _ H1), (E _ _ H2). cbn [app]. do 4 f_equal. lia.
Qed.

Lemma matchAt_doc cf1 cf2 : c_doc cf1 = c_doc cf2 -> forall l o, matchAt cf1 o l = matchAt cf2 o l.
Proof. intros E l. induction l as [|c l IH]; intros o; cbn [matchAt]; [reflexivity|]. unfold idx. rewrite E, IH. reflexivity. Qed.
Lemma decide_weaker cf1 cf2 : c_doc cf1 = c_doc cf2 -> c_docLength cf1 = c_docLength cf2 -> c_ns cf2 = false -> forall s u s',
  decideEncoding cf1 s = ROk u s' -> decideEncoding cf2 s = ROk u s'.
Proof.
  intros E L N s u s'. unfold decideEncoding. rewrite !bind_get. cbv beta. unfold idx. rewrite E, L, N, !(matchAt_doc cf1 cf2 E).
  rewrite !bindE. change (s_off s) with (s_off s). destruct (znth (c_doc cf2) (s_off s)) as [c|]; [|intros K; discriminate K]. generalize (b2z c). intros c0.
  rewrite !bindE. match goal with |- context [(if c0 =? -2 then ?a else ?b) s] => destruct ((if c0 =? -2 then a else b) s) as [[] s1|e s1|w|] end; [|intros K; discriminate K..].
  rewrite !bind_get. destruct (s_enc s1 <? FormatUtf16BE) eqn:Z1; [|tauto]. destruct (c_ns cf1); [|tauto].
  destruct (2^30 <=? s_off s1 + c_docLength cf2) eqn:Z2; [intros K; discriminate K|]. destruct (2^31 <=? s_off s1 + c_docLength cf2) eqn:Z3; [lia|]. tauto.
Qed.

Lemma aware_run o1 o2 doc off len s1 : Forall go_value o1 -> Forall go_value o2 ->
  window_of o1 = (Some doc, off, len) -> window_of o2 = (Some doc, off, len) -> ns_of o1 = true -> ns_of o2 = false -> shallow_of o1 = shallow_of o2 ->
  zlen doc <= 2^31 -> ~ contains doc [x26; x61] ->
  runParser o1 = Parsed s1 -> exists s2, runParser o2 = Parsed s2 /\ toArray (s_vtd s1) = toArray (s_vtd s2) /\ same_cache s1 s2 /\ s_vtd s1 = s_vtd s2 /\ forall q, lcIs q s2 -> lcIs q s1.
Proof.
  intros F1 F2 W1 W2 N1 N2 Sh L NA R.
  pose proof (new_pair o1 o2 F1 F2 ltac:(congruence)) as P. pose proof (new_spec o1 F1) as P1. pose proof (new_spec o2 F2) as P2.
  pose proof (run_spec o1 F1) as S1. rewrite R in S1. destruct S1 as (cf' & s' & NE & _ & _ & _ & _ & _ & _ & NS).
  revert R. unfold runParser. rewrite NE in P, P1 |- *. clear NE. rename cf' into cf1. rename s' into t1.
  destruct (newVtdParser o2) as [[cf2 t2]|e2|w2]; try contradiction.
  destruct P1 as (G1 & O1 & L1 & E1 & M1 & H1 & FR). destruct P2 as (G2 & O2 & L2 & E2 & M2 & H2 & _). destruct P as (_ & _ & _ & Q). specialize (Q Sh). subst t2.
  rewrite W1 in *. rewrite W2 in *. destruct G1 as (G1 & _ & G3 & _ & G5), G2 as [G2 _]. cbn [fst snd] in *.
  assert (Hdoc : c_doc cf1 = c_doc cf2) by congruence. assert (D1 : doc = c_doc cf1) by congruence.
  assert (Ho : s_off t1 = c_docOffset cf1 /\ s_roff t1 = c_docOffset cf1 /\ s_rascii t1 = false /\ s_enc t1 = 0 /\ s_inc t1 = 1 /\ s_single t1 = true).
  { destruct FR as (? & ? & ? & ? & ? & ? & ? & ? & ? & -> & _). repeat split. }
  destruct Ho as (Ho & Hr & Ha & He & Hi & Hsi).
  assert (B : lbOk (s_vtd t1)) by exact (proj1 (fresh_bufs _ _ FR)).
  pose proof (decide_spec cf1 t1 ltac:(lia) Ho He Hi Hsi) as X. 
  unfold parse. rewrite !bindE. destruct (decideEncoding cf1 t1) as [[] u1|e u1|w|] eqn:DE; [|discriminate..].
  destruct X as (X1 & X2 & X3).
  assert (L12 : c_docLength cf1 = c_docLength cf2) by congruence.
  destruct X3 as [(-> & (b0 & Hb & Hnz) & HLE)|[(-> & Sg)|(-> & Sg)]]; [|elim NS; unfold utf16_sig; rewrite <- Ho; tauto..].
  rewrite (decide_weaker cf1 cf2 Hdoc L12 ltac:(congruence) t1 tt t1 DE). cbv iota. rewrite !bindE. unfold get at 1. cbv beta iota.
  rewrite !bindE. unfold get at 1. cbv beta iota. unfold writeVtd. rewrite !bindE.
  match goal with |- context [appendTo s_vtd set_vtd ?v t1] => destruct (appendVtd v t1 B) as (b & Eb & _) end. rewrite Eb.
  assert (PL : sameN (set_vtd b t1) (set_vtd b t1)) by (split; [reflexivity | split; assumption]).
  assert (AL := aware_loop cf1 cf2). repeat match type of AL with ?h -> _ =>
    assert (Z1 : h) by first [congruence | (apply no_amp_a; rewrite <- D1; exact NA) | (rewrite <- D1; exact L)]; specialize (AL Z1); clear Z1 end.
  destruct (AL _ _ PL) as [M|M].
  2:{ intros K. exfalso. revert K M. destruct (parseLoop cf1 _ _ _); [|discriminate..]. intros _ []. }
  destruct (parseLoop cf1 _ _ _) as [x1 r1|e r1|w|]; [|discriminate..]. destruct (parseLoop cf2 _ _ _) as [x2 r2|e r2|w|]; try contradiction.
  intros [= ->]. destruct M as [_ (M & _)]. exists r2. split; [reflexivity|]. rewrite M. split; [reflexivity|]. split; [repeat split|]. split; [reflexivity|]. intros q H. exact H.
Qed.
(** It holds of documents, at most 2^31 bytes long, in which no '&' is followed by 'a'. *)
Theorem C55_awareness_partial : forall o1 o2 doc off len s1, Forall go_value o1 -> Forall go_value o2 ->
  window_of o1 = (Some doc, off, len) -> window_of o2 = (Some doc, off, len) -> ns_of o1 = true -> ns_of o2 = false -> shallow_of o1 = shallow_of o2 ->
  zlen doc <= 2^31 -> ~ contains doc [x26; x61] ->
  runParser o1 = Parsed s1 -> exists s2, runParser o2 = Parsed s2 /\ toArray (s_vtd s1) = toArray (s_vtd s2) /\ same_cache s1 s2.
Proof.
  intros o1 o2 doc off len s1 F1 F2 W1 W2 N1 N2 Sh L NA R. destruct (aware_run o1 o2 doc off len s1 F1 F2 W1 W2 N1 N2 Sh L NA R) as (s2 & E & A & B & _). eauto.
Qed.
Print Assumptions C55_awareness_partial.
Definition c55_doc : list byte := bytes_of "<p:a xmlns:p='u'><b p:c='&lt;' d='2'>t</b></p:a>".
Example C55_example : exists s1, runParser [OXmlDoc (Some c55_doc); ONs true; OLcDepth 5] = Parsed s1 /\
  toArray (s_l1 s1) <> Some (Ok []) /\ s_prefCount s1 = 0 /\ b_size (s_ns3 s1) = 1 /\ zlen c55_doc <= 2^31 /\ ~ contains c55_doc [x26; x61].
Proof.
  eexists. split; [vm_compute; reflexivity|]. split; [vm_compute; discriminate|]. split; [reflexivity|]. split; [reflexivity|].
  split; [vm_compute; discriminate|]. apply containsb_false. vm_compute. reflexivity.
Qed.
