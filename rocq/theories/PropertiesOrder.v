(** The tokens of an accepted document are in the order of the document. *)
From Verif Require Import Lib XmlChar Buffer BufferProofs SpecBuffer Reader ParserState ParserPrim ParserProc ParserMain SpecParse ParserWp ParserOutcome ParserFrame
  SpecToken SpecNav Nav SpecDoc SpecWindow SpecPart DocBase DocMain DocCut PropertiesParse PropertiesQuirks PropertiesDoc PropertiesRead.

(** ** Order of the specified tokens *)
(** [b] starts after [a], or [b] is the empty value recorded for a PI without value. *)
Definition step (a b : tok) : Prop :=
  t_off a < t_off b \/ t_type a = 7 /\ 0 <= t_len a < 2^20 /\ t_type b = 8 /\ t_len b = 0 /\ t_off a = t_off b.
Fixpoint chained (lo : Z) (l : list tok) (hi : Z) : Prop :=
  match l with
  | [] => lo <= hi
  | a :: t => lo <= t_off a < hi /\ match t with b :: _ => step a b | [] => True end /\ chained lo t hi
  end.
Lemma chained_app l1 : forall lo mid l2 hi, chained lo l1 mid -> chained mid l2 hi -> lo <= mid -> mid <= hi -> chained lo (l1 ++ l2) hi.
Proof.
  assert (LO : forall l lo lo' hi, chained lo l hi -> lo' <= lo -> chained lo' l hi).
  { induction l as [|a l IH]; intros lo lo' hi H L; cbn [chained] in *; [lia|]. destruct H as (H1 & H2 & H3). split; [lia|]. split; [exact H2 | apply (IH lo); assumption]. }
  induction l1 as [|a l IH]; intros lo mid l2 hi H1 H2 L M; cbn [app]; [apply (LO _ mid); assumption|].
  cbn [chained] in *. destruct H1 as (A & B & C). split; [lia|]. split; [|apply (IH lo mid); assumption].
  destruct l as [|b l]; cbn [app]; [|exact B]. destruct l2 as [|b l2]; [exact I|]. cbn [chained] in H2. left. lia.
Qed.
Lemma chained_weak l : forall lo hi lo' hi', chained lo l hi -> lo' <= lo -> hi <= hi' -> chained lo' l hi'.
Proof. induction l as [|a l IH]; intros lo hi lo' hi' H L M; cbn [chained] in *; [lia|]. destruct H as (H1 & H2 & H3). split; [lia|]. split; [exact H2 | apply (IH lo hi); assumption]. Qed.
Lemma chained_at l : forall lo hi i a b, chained lo l hi -> value_at l i a -> value_at l (i + 1) b -> lo <= t_off a < hi /\ lo <= t_off b < hi /\ step a b.
Proof.
  induction l as [|c l IH]; intros lo hi i a b H A B; [destruct A as ([|] & ? & X & _); discriminate X|]. cbn [chained] in H. destruct H as (H1 & H2 & H3).
  destruct A as ([|x u] & v & E & L).
  - cbn [app length] in *. injection E as -> ->. destruct B as (u' & v' & E' & L'). destruct u' as [|y [|z u']]; cbn [app length] in *; try lia. injection E' as -> ->. cbn [chained] in H3. split; [exact H1|]. split; [tauto | exact H2].
  - cbn [app length] in *. injection E as <- E. apply (IH lo hi (i - 1) a b H3); [exists u, v; split; [exact E | lia]|].
    destruct B as ([|y u'] & v' & E' & L'); cbn [app length] in *; [lia|]. injection E' as _ E'. exists u', v'. split; [exact E' | lia].
Qed.

Lemma attr_chain p d a : wf_attr a -> chained p (attr_toks p d a) (p + zlen (render_attr a)).
Proof.
  intros _. unfold attr_toks, render_attr. cbv zeta. rewrite !zlen_app. repeat rewrite zlen_cons. rewrite !zlen_nil. cbn [chained t_off]. pose proof (zlen_nonneg (a_ws a)). pose proof (zlen_nonneg (a_name a)). pose proof (zlen_nonneg (a_eq1 a)). pose proof (zlen_nonneg (a_eq2 a)). pose proof (zlen_nonneg (a_value a)).
  unfold step. cbn [t_off]. lia.
Qed.
Lemma attrs_chain d l : forall p, Forall wf_attr l -> chained p (attrs_toks p d l) (p + zlen (render_attrs l)).
Proof.
  induction l as [|a l IH]; intros p H; [cbn; lia|]. inversion H; subst. cbn [attrs_toks]. unfold render_attrs. cbn [map concat]. rewrite zlen_app. fold (render_attrs l). pose proof (zlen_nonneg (render_attr a)). pose proof (zlen_nonneg (render_attrs l)).
  apply (chained_app _ _ (p + zlen (render_attr a))); [apply attr_chain; assumption | | lia | lia]. rewrite Z.add_assoc. apply IH. assumption.
Qed.
Lemma name_nonempty n : is_name n -> 0 < zlen n.
Proof. intros (b & t & -> & _). rewrite zlen_cons. pose proof (zlen_nonneg t). lia. Qed.
Lemma text_short ty o len d : len <= max_token -> text_toks ty o len d = [Tok ty o len d].
Proof. intros H. unfold text_toks. destruct (len <=? max_token) eqn:E; [reflexivity | lia]. Qed.
Lemma markup_chain j st p d m : wf_markup j st m -> zlen (render_markup m) <= max_token -> chained p (markup_toks j p d m) (p + zlen (render_markup m)).
Proof.
  intros W L. destruct m as [n atts tail e|n w|x|x|n v|x]; cbn [render_markup markup_toks wf_markup] in *.
  - destruct W as ((n' & -> & N) & _ & _ & A & _). apply name_nonempty in N. rewrite !zlen_app in *. pose proof (zlen_nonneg j). pose proof (zlen_nonneg (render_attrs atts)). pose proof (zlen_nonneg tail).
    assert (0 < zlen (if e then lit "/>" else lit ">")) by (destruct e; reflexivity).
    apply (chained_app [_] _ (p + (zlen j + zlen n'))); [cbn [chained t_off]; lia | | lia | lia].
    apply (chained_weak _ (p + (zlen j + zlen n')) (p + (zlen j + zlen n') + zlen (render_attrs atts))); [apply attrs_chain; exact A | lia | lia].
  - rewrite !zlen_app. change (zlen (lit "/")) with 1. change (zlen (lit ">")) with 1. pose proof (zlen_nonneg n). pose proof (zlen_nonneg w). cbn [chained]. lia.
  - rewrite !zlen_app in *. change (zlen (lit "!--")) with 3 in *. change (zlen (lit "-->")) with 3 in *. pose proof (zlen_nonneg x). rewrite text_short by lia. cbn [chained t_off]. lia.
  - rewrite !zlen_app in *. change (zlen (lit "![CDATA[")) with 8 in *. change (zlen (lit "]>")) with 2 in *. pose proof (zlen_nonneg x). rewrite text_short by lia. cbn [chained t_off]. lia.
  - destruct W as (_ & Ln & _). unfold max_token in *. pose proof (zlen_nonneg n). destruct v as [(b, x)|]; rewrite !zlen_app in *; change (zlen (lit "?")) with 1 in *; change (zlen (lit "?>")) with 2 in *.
    + pose proof (zlen_nonneg x). change (zlen [b]) with 1 in *. cbn [chained t_off]. unfold step. cbn [t_off]. lia.
    + cbn [chained t_off]. unfold step. cbn [t_off t_type t_len]. lia.
  - rewrite !zlen_app. change (zlen (lit "!DDOCTYPE")) with 9. change (zlen (lit ">")) with 1. pose proof (zlen_nonneg x). cbn [chained t_off]. lia.
Qed.
Lemma gap_chain p d m g next : zlen (render_gap g) <= max_token -> chained p (gap_toks p d m g next) (p + zlen (render_gap g)).
Proof.
  intros L. destruct g as [x|w r]; cbn [gap_toks render_gap] in *; [|cbn [chained]; pose proof (zlen_nonneg (w ++ r)); lia].
  rewrite zlen_app in *. change (zlen (lit "<")) with 1 in *. pose proof (zlen_nonneg x). destruct (_ && _); [cbn [chained]; lia|]. rewrite text_short by lia. cbn [chained t_off]. lia.
Qed.
Lemma body_chain l : forall j p st f, wf_body j st l f -> zlen (render_body j l f) <= max_token -> chained p (body_toks j p st l f) (p + zlen (render_body j l f)).
Proof.
  induction l as [|(m, g) l IH]; intros j p st f W L; cbn [wf_body render_body body_toks] in *.
  - destruct W as (W & _). unfold render_first in *. rewrite zlen_app in *. pose proof (zlen_nonneg (lead j f)). apply (chained_weak _ (p + zlen (lead j f)) (p + zlen (lead j f) + zlen (render_markup f))); [apply (markup_chain j st); [exact W | lia] | lia | lia].
  - destruct W as (W & _ & _ & W'). rewrite !zlen_app in *. pose proof (zlen_nonneg (render_gap g)). pose proof (zlen_nonneg (render_body [] l f)). pose proof (zlen_nonneg (render_first j m)).
    apply (chained_app _ _ (p + zlen (render_first j m))); [| | lia | lia].
    + unfold render_first in *. rewrite zlen_app in *. pose proof (zlen_nonneg (lead j m)). pose proof (zlen_nonneg (render_markup m)). apply (chained_weak _ (p + zlen (lead j m)) (p + zlen (lead j m) + zlen (render_markup m))); [apply (markup_chain j st); [exact W | lia] | lia | lia].
    + apply (chained_app _ _ (p + zlen (render_first j m) + zlen (render_gap g))); [apply gap_chain; lia | | lia | lia].
      eapply chained_weak; [apply IH; [exact W' | lia] | lia | lia].
Qed.
Lemma epilog_chain l w : forall p, wf_epilog l w -> chained p (epilog_toks p l) (p + zlen (render_epilog l w)).
Proof.
  induction l as [|e l IH]; intros p W; cbn [epilog_toks render_epilog wf_epilog] in *; [cbn [chained]; pose proof (zlen_nonneg w); lia|]. destruct W as (We & Wn & W). rewrite zlen_app.
  pose proof (zlen_nonneg (render_epilog l w)) as Lr. pose proof (zlen_nonneg (render_epi e)).
  assert (LE : zlen (render_epi e) = zlen (p_ws e) + 2 + zlen (p_target e) + match p_value e with None => 1 | Some (_, x) => 1 + zlen x + 2 end).
  { unfold render_epi. rewrite !zlen_app. change (zlen (lit "<?")) with 2. destruct (p_value e) as [(b, x)|]; [rewrite !zlen_app; change (zlen [b]) with 1; change (zlen (lit "?>")) with 2; lia | change (zlen (lit "?")) with 1; lia]. }
  pose proof (zlen_nonneg (p_ws e)). pose proof (zlen_nonneg (p_target e)). specialize (IH (p + zlen (render_epi e)) W).
  assert (0 < zlen (render_epilog l w) \/ p_value e <> None).
  { destruct (p_value e); [right; discriminate|]. left. specialize (Wn eq_refl). destruct (render_epilog l w) as [|b r]; [contradiction|]. rewrite zlen_cons. pose proof (zlen_nonneg r). lia. }
  unfold epi_toks. cbv zeta. cbn [app].
  destruct (p_value e) as [(b, x)|] eqn:Ev.
  - pose proof (zlen_nonneg x). change (chained p ([Tok 7 (p + zlen (p_ws e) + 2) (zlen (p_target e)) (-1); Tok 8 (p + zlen (p_ws e) + 2 + zlen (p_target e) + 1) (zlen x) (-1)] ++ epilog_toks (p + zlen (render_epi e)) l) (p + (zlen (render_epi e) + zlen (render_epilog l w)))).
    apply (chained_app _ _ (p + zlen (render_epi e))); [cbn [chained t_off]; unfold step; cbn [t_off]; lia | rewrite Z.add_assoc; exact IH | lia | lia].
  - assert (0 < zlen (render_epilog l w)) by (destruct H2 as [?|[]]; [assumption | reflexivity]).
    assert (M : match epilog_toks (p + zlen (render_epi e)) l with b :: _ => p + zlen (render_epi e) + 2 <= t_off b | [] => True end).
    { destruct l as [|e' l]; [exact I|]. cbn [epilog_toks epi_toks app]. cbv zeta. cbn [app t_off]. pose proof (zlen_nonneg (p_ws e')). lia. }
    cbn [chained t_off]. split; [lia|]. split; [left; cbn [t_off]; lia|]. split; [lia|].
    split. { destruct (epilog_toks (p + zlen (render_epi e)) l) as [|b r]; [exact I|]. left. cbn [t_off]. lia. }
    eapply chained_weak; [exact IH | lia | lia].
Qed.
Lemma decl_chain p d : wf_decl d -> chained p (decl_toks p d) (p + zlen (render_decl d)).
Proof.
  intros (X & _ & _ & _ & _ & _ & _ & R & _). assert (X3 : zlen (d_xml d) = 3) by (destruct (d_xml d) as [|a [|b [|c [|e r]]]]; try contradiction; reflexivity).
  unfold render_decl, decl_toks. cbv zeta. rewrite !zlen_app. change (zlen (lit "<?")) with 2. change (zlen (lit "version")) with 7. change (zlen (lit "=")) with 1. change (zlen [d_quote d]) with 1. change (zlen (lit "1.")) with 2. change (zlen [d_minor d]) with 1. change (zlen (lit "?>")) with 2.
  pose proof (zlen_nonneg (d_ws d)). pose proof (zlen_nonneg (d_eq1 d)). pose proof (zlen_nonneg (d_eq2 d)). pose proof (zlen_nonneg (d_tail d)). pose proof (zlen_nonneg (render_rest (d_rest d))).
  rewrite X3. set (pv := p + 5 + zlen (d_ws d)). set (px := pv + 7 + zlen (d_eq1 d) + 1 + zlen (d_eq2 d) + 1).
  match goal with |- chained _ (?a :: ?b :: ?r) ?hi => change (chained p ([a; b] ++ r) hi); set (H9 := hi) end.
  assert (HH : H9 = px + 4 + zlen (render_rest (d_rest d)) + 2 + zlen (d_tail d)) by (unfold H9, px, pv; lia). clearbody H9. subst H9.
  apply (chained_app _ _ (px + 4)); [unfold px, pv; cbn [chained t_off]; unfold step; cbn [t_off]; lia | | unfold px, pv; lia | lia].
  destruct (d_rest d) as [((w, e), a)|]; [|cbn [chained]; lia]. cbn [render_rest] in *. rewrite !zlen_app in *. pose proof (zlen_nonneg w). pose proof (zlen_nonneg (render_opt render_encoding e)). pose proof (zlen_nonneg (render_opt render_standalone a)).
  apply (chained_weak _ (px + 4 + zlen w) (px + 4 + zlen w + zlen (render_opt render_encoding e) + zlen (render_opt render_standalone a))); [| lia | lia].
  apply (chained_app _ _ (px + 4 + zlen w + zlen (render_opt render_encoding e))); [| | lia | lia].
  - destruct e as [e|]; [|cbn [chained render_opt]; rewrite zlen_nil; lia]. cbn [render_opt]. unfold render_encoding, enc_toks. rewrite !zlen_app. change (zlen (lit "encoding")) with 8. change (zlen (lit "=")) with 1. change (zlen [e_q1 e]) with 1. change (zlen [e_q2 e]) with 1.
    pose proof (zlen_nonneg (e_eq1 e)). pose proof (zlen_nonneg (e_eq2 e)). pose proof (zlen_nonneg (e_value e)). pose proof (zlen_nonneg (e_tail e)). cbn [chained t_off]. unfold step. cbn [t_off]. lia.
  - destruct a as [a|]; [|cbn [chained render_opt]; rewrite zlen_nil; lia]. cbn [render_opt]. unfold render_standalone, sta_toks. rewrite !zlen_app. change (zlen (lit "standalone")) with 10. change (zlen (lit "=")) with 1. change (zlen [s_q1 a]) with 1. change (zlen [s_q2 a]) with 1.
    pose proof (zlen_nonneg (s_eq1 a)). pose proof (zlen_nonneg (s_eq2 a)). pose proof (zlen_nonneg (sta_value a)). pose proof (zlen_nonneg (s_tail a)). cbn [chained t_off]. unfold step. cbn [t_off]. lia.
Qed.
Lemma tokens_chain p d : wf d -> zlen (render d) <= max_token -> chained p (tl (tokens p d)) (p + zlen (render d)).
Proof.
  intros (W1 & W2 & W3) L. unfold tokens. cbv zeta. cbn [tl]. unfold render in *. rewrite !zlen_app in *. pose proof (zlen_nonneg (render_start (d_start d))). pose proof (zlen_nonneg (d_body d)). pose proof (zlen_nonneg (render_epilog (d_epis d) (d_end d))).
  apply (chained_app _ _ (p + zlen (render_start (d_start d)))); [| | lia | lia].
  - destruct (d_start d) as [j|w|dc]; cbn [start_toks wf_start render_start] in *; [cbn [chained]; lia..|]. rewrite zlen_app. eapply chained_weak; [apply decl_chain; exact W1 | lia | change (zlen (lit "<")) with 1; lia].
  - apply (chained_app _ _ (p + zlen (render_start (d_start d)) + zlen (d_body d))); [apply body_chain; [exact W2 | unfold d_body in *; lia] | | lia | lia].
    eapply chained_weak; [apply epilog_chain; exact W3 | lia | lia].
Qed.

(** ** The fields of the words *)
Lemma word_off t : 0 <= t_off t < 2^32 -> field_offset (word t) = t_off t.
Proof. intros H. unfold field_offset, word, unsigned64. cbv zeta. destruct (t_len t <? 0); [lia|]. destruct (_ <? 2^63); lia. Qed.
Lemma word_type t : 0 <= t_off t < 2^32 -> 0 <= t_len t < 2^20 -> 0 <= t_type t < 16 -> field_type (word t) = t_type t /\ field_length (word t) = t_len t.
Proof.
  intros H L T. assert (U : unsigned64 (word t) = t_type t * 2^60 + (t_depth t mod 2^8) * 2^52 + t_len t * 2^32 + t_off t).
  { unfold word, unsigned64. cbv zeta. destruct (t_len t <? 0) eqn:E; [lia|]. destruct (_ <? 2^63); lia. }
  unfold field_type, field_length. rewrite U. split; lia.
Qed.

(** ** C114 *)
Theorem C114_order_partial : forall opts doc rest off s, scans opts doc rest off -> runParser opts = Parsed s -> zlen (window doc off) < 2^20 - 1 ->
  exists w, exports s w /\ forall i a b, 1 <= i -> value_at w i a -> value_at w (i + 1) b ->
    field_offset a < field_offset b \/
    field_type a = 7 /\ field_type b = 8 /\ field_length b = 0 /\ field_offset a = field_offset b.
Proof.
  intros opts doc rest off s R E L. destruct (accepted _ _ _ _ _ R E) as (L31 & d & W & Ed & X & _). exists (map word (tokens off d)). split; [exact X|].
  destruct (window_length _ _ _ _ _ R Ed) as (WL & WL'). pose proof R as (_ & _ & Ho & _).
  pose proof (tokens_chain off d W ltac:(unfold max_token; lia)) as C. intros i a b Hi A B.
  assert (MA : forall k x, value_at (map word (tokens off d)) k x -> exists t, value_at (tokens off d) k t /\ x = word t).
  { intros k x (u & v & Eu & Lu). apply map_eq_app in Eu. destruct Eu as (u' & v' & -> & Eu & Ev). destruct v' as [|t v']; [discriminate Ev|]. cbn [map] in Ev. injection Ev as Ex Ev.
    exists t. split; [|congruence]. exists u', v'. split; [reflexivity|]. rewrite <- Lu, <- Eu, map_length. reflexivity. }
  destruct (MA _ _ A) as (ta & Va & ->). destruct (MA _ _ B) as (tb & Vb & ->).
  replace i with ((i - 1) + 1) in Va by lia. apply value_at_tl in Va; [|lia]. apply value_at_tl in Vb; [|lia]. replace i with ((i - 1) + 1) in Vb by lia.
  destruct (chained_at _ _ _ _ _ _ C Va Vb) as (Ba & Bb & [St|(T1 & T2 & T3 & T4 & T5)]).
  - left. rewrite !word_off by lia. exact St.
  - right. destruct (word_type ta ltac:(lia) T2 ltac:(lia)) as (-> & _). destruct (word_type tb ltac:(lia) ltac:(lia) ltac:(lia)) as (-> & ->). rewrite !word_off by lia. auto.
Qed.
Print Assumptions C114_order_partial.
(** A text of 2^20 bytes: the start tag is recorded at 1, the text after it at 0. *)
Theorem C114_order_refuted : exists opts s w, runParser opts = Parsed s /\ exports s w /\
  exists i a b, 1 <= i /\ value_at w i a /\ value_at w (i + 1) b /\ field_offset b < field_offset a.
Proof.
  destruct C39_long_text_refuted as (x & s & w & E & _ & _ & X & _ & O & _). exists [OXmlDoc (Some (bytes_of "<a>" ++ x ++ bytes_of "</a>"))], s, w. split; [exact E|]. split; [exact X|].
  destruct w as [|w0 [|w1 [|w2 r]]]; try discriminate O. cbn [map] in O. injection O as _ O1 O2 _. exists 1, w1, w2. split; [lia|]. split; [exists [w0], (w2 :: r); split; reflexivity|].
  split; [exists [w0; w1], r; split; reflexivity|]. lia.
Qed.
Print Assumptions C114_order_refuted.
(** a PI without a value: offsets 5 and 5 *)
Example C114_example :
  match runParser [OXmlDoc (Some (bytes_of "<a><?p?><b c='d'>x</b></a>"))] with
  | Parsed s => match toArray (s_vtd s) with Some (Ok w) => map field_offset w = [0; 1; 5; 5; 9; 11; 14; 17] | _ => False end
  | _ => False
  end.
Proof. vm_compute. reflexivity. Qed.
