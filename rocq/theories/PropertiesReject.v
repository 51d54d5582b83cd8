(** Rejections that hold with namespace awareness too: what the grammar does not allow
    is not accepted in either mode, and the limit under which this holds is needed. *)
From Verif Require Import Lib XmlChar Buffer BufferProofs Reader ParserState ParserPrim ParserProc ParserMain
  SpecParse SpecChar SpecDoc SpecWindow SpecLoc SpecToken DocScan DocBase PropertiesParse DocMain DocErr DocLoc PropertiesQuirks DocShow DocCut PropertiesDoc PropertiesRel.

(** The same window without namespace awareness *)
Definition plainly (doc rest : list byte) (off : Z) : list popt := [OCustom (Some (doc ++ rest)) off (zlen doc - off)].
Lemma plainly_scans doc rest off : 0 <= off < zlen doc -> zlen (doc ++ rest) < 2^31 -> scans (plainly doc rest off) doc rest off.
Proof.
  intros H L. pose proof (zlen_app doc rest). pose proof (zlen_nonneg rest).
  split; [|split; [discriminate|split; [exact H|split; [right; exact L | reflexivity]]]].
  constructor; [|constructor]. cbn [go_value]. split; [lia|]. split; [lia|]. intros l [= <-]. lia.
Qed.
Lemma scans_reads' opts doc rest off : scans opts doc rest off -> ns_of opts = false -> reads opts doc off.
Proof. intros (F & _ & Ho & _ & W) N. split; [exact F|]. split; [exact N|]. split; [exact Ho|]. exists rest. exact W. Qed.
(** What one mode accepts the other one accepts without namespace awareness. *)
Lemma accepted_plainly opts doc rest off s : scans opts doc rest off -> runParser opts = Parsed s ->
  zlen (doc ++ rest) < 2^31 /\ exists t, runParser (plainly doc rest off) = Parsed t.
Proof.
  intros S E. destruct (accepted _ _ _ _ _ S E) as (L & d & W & Sh & _). pose proof S as (_ & _ & Ho & Lr & _).
  assert (LB : zlen (doc ++ rest) < 2^31) by (destruct Lr as [-> |Lr]; [rewrite app_nil_r; exact L | exact Lr]).
  split; [exact LB|]. destruct (scan_ok _ doc rest off d (plainly_scans doc rest off Ho LB) eq_refl L W Sh) as (t & Et & _). exists t. exact Et.
Qed.

(** ** C106: mistakes are not accepted in either mode *)
Theorem C106_mistakes_never : forall opts doc rest off S it st r v s, scans opts doc rest off ->
  begins_with (window doc off) S it st r -> mistake (junk_left S it) st r v -> runParser opts <> Parsed s.
Proof.
  intros opts doc rest off S it st r v s R B M E. destruct (accepted_plainly _ _ _ _ _ R E) as (L & t & Et). pose proof R as (_ & _ & Ho & _).
  pose proof (zlen_app doc rest). pose proof (zlen_nonneg rest).
  pose proof (C86_mistakes _ doc off S it st r v (scans_reads' _ _ _ _ (plainly_scans doc rest off Ho L) eq_refl) ltac:(lia) B M) as G.
  destruct v as [msg o|]; cbn [gives] in G; [destruct G as (l & c & s' & G & _)|]; rewrite G in Et; discriminate Et.
Qed.
Print Assumptions C106_mistakes_never.

(** The three limits of C36, C37 and C38, with or without namespace awareness *)
Theorem C36_repeated_attribute_never : forall opts doc rest off S it st n atts ws nm c r s, scans opts doc rest off ->
  begins_with (window doc off) S it st ((n ++ render_attrs atts ++ ws) ++ nm ++ c :: r) -> in_tag (junk_left S it) st n atts ws ->
  is_name nm -> c = x3d \/ space c = true -> In nm (map a_name atts) -> runParser opts <> Parsed s.
Proof. intros opts doc rest off S it st n atts ws nm c r s R B T N C H. exact (C106_mistakes_never _ _ _ _ _ _ _ _ _ s R B (Same_attribute _ _ _ _ _ _ _ _ T N C H)). Qed.
Print Assumptions C36_repeated_attribute_never.
Theorem C37_too_deep_never : forall opts doc rest off S it st n c r s, scans opts doc rest off ->
  begins_with (window doc off) S it st (n ++ c :: r) -> is_name n -> ~ name_char c -> 254 < zlen st -> runParser opts <> Parsed s.
Proof.
  intros opts doc rest off S it st n c r s R B N C D.
  assert (J : junk_left S it = []). { unfold junk_left. destruct it; [|reflexivity]. destruct B as (_ & _ & W). cbn [wf_items] in W. subst st. cbn in D. lia. }
  refine (C106_mistakes_never _ _ _ _ _ _ _ _ _ s R B (Too_deep _ _ n c r _ C D)). rewrite J. exists n. auto.
Qed.
Print Assumptions C37_too_deep_never.

Section Long.
Variables (opts : list popt) (doc rest : list byte) (off : Z) (S : start) (it : list (markup * gap)) (st : list (list byte)).
Hypothesis R : scans opts doc rest off.
Notation starts r := (begins_with (window doc off) S it st r).
Notation J := (junk_left S it).
Theorem C38_long_element_never : forall n c r s, starts (n ++ c :: r) -> (exists n', n = J ++ n' /\ is_name n') -> ~ name_char c -> ~ short_name n ->
  runParser opts <> Parsed s.
Proof.
  intros n c r s B N C F. pose proof (J_short _ _ _ _ _ _ B). pose proof (zlen_nonneg J). destruct (Z_lt_ge_dec max_depth (zlen st)) as [D|D].
  - exact (C106_mistakes_never _ _ _ _ _ _ _ _ _ s R B (Too_deep _ _ n c r N C D)).
  - refine (C106_mistakes_never _ _ _ _ _ _ _ _ _ s R B (Long_element _ _ n c r N C _ _)); [lia|]. intros X. apply F. apply (short_fits (zlen J + 1)); [lia | exact X].
Qed.
Theorem C38_long_attribute_never : forall n atts ws nm c r s, starts ((n ++ render_attrs atts ++ ws) ++ nm ++ c :: r) -> in_tag J st n atts ws ->
  is_name nm -> c = x3d \/ space c = true -> zlen atts < 256 -> ~ short_name nm -> runParser opts <> Parsed s.
Proof.
  intros n atts ws nm c r s B T N C A F. assert (F' : ~ name_fits 1 nm) by (intros X; apply F; apply (short_fits 1); [lia | exact X]).
  destruct (in_dec (list_eq_dec Byte.byte_eq_dec) nm (map a_name atts)) as [H|H].
  - exact (C36_repeated_attribute_never _ _ _ _ _ _ _ _ _ _ _ _ _ s R B T N C H).
  - exact (C106_mistakes_never _ _ _ _ _ _ _ _ _ s R B (Long_attribute _ _ _ _ _ _ _ _ T N C H A F')).
Qed.
Theorem C38_long_value_never : forall n atts ws nm e1 e2 q x r s, starts ((n ++ render_attrs atts ++ ws) ++ nm ++ e1 ++ x3d :: e2 ++ q :: x ++ q :: r) -> in_tag J st n atts ws ->
  is_name nm -> ~ In nm (map a_name atts) -> zlen atts < 256 -> short_name nm -> blank e1 = true -> blank e2 = true -> q = x22 \/ q = x27 -> attvalue q x -> 2^20 - 1 < zlen x ->
  runParser opts <> Parsed s.
Proof.
  intros n atts ws nm e1 e2 q x r s B T N H A F E1 E2 Q V X. apply (short_fits 1) in F; [|lia].
  exact (C106_mistakes_never _ _ _ _ _ _ _ _ _ s R B (Long_value _ _ _ _ _ _ _ _ _ _ _ T N H A F E1 E2 Q V X)).
Qed.
Theorem C38_long_pi_never : forall n r s, starts (J ++ x3f :: n ++ r) -> pi_target n ->
  (exists c t, r = c :: t /\ ~ name_char c /\ 2^20 - 1 < zlen n) \/
  (exists b x t, r = b :: x ++ lit "?>" ++ t /\ zlen n <= 2^20 - 1 /\ space b = true /\ Forall char x /\ no_sub "?>" x /\ 2^20 - 1 < zlen x) ->
  runParser opts <> Parsed s.
Proof.
  intros n r s B N [(c & t & -> & C & X)|(b & x & t & -> & N1 & Hb & Hx & Hs & X)].
  - exact (C106_mistakes_never _ _ _ _ _ _ _ _ _ s R B (Long_pi_name _ _ _ _ _ N C X)).
  - exact (C106_mistakes_never _ _ _ _ _ _ _ _ _ s R B (Long_pi_value _ _ _ _ _ _ N N1 Hb Hx Hs X)).
Qed.
End Long.
Print Assumptions C38_long_element_never.
Print Assumptions C38_long_attribute_never.
Print Assumptions C38_long_value_never.
Print Assumptions C38_long_pi_never.

(** The limit "no '&' followed by 'a'" of [scans] is needed: with it lifted, a document
    outside the grammar is accepted. *)
Definition amp_doc : list byte := bytes_of "<a xmlns:p='&amp;xxxxxxxxxxxxxxxxxxxxxxxxxx'z/>".
Theorem C106_limit_refuted : exists doc s, runParser [OXmlDoc (Some doc); ONs true] = Parsed s /\
  ~ exists d, wf d /\ render d = doc.
Proof.
  exists amp_doc. eexists. split; [vm_compute; reflexivity|]. intros (d & W & E).
  assert (R : reads [OXmlDoc (Some amp_doc)] amp_doc 0).
  { split; [repeat constructor|]. split; [reflexivity|]. split; [vm_compute; split; [discriminate | reflexivity]|]. exists []. reflexivity. }
  destruct (C85_tokens_exact _ _ _ d R eq_refl W E) as (s & Es & _).
  assert (X : match runParser [OXmlDoc (Some amp_doc)] with Parsed _ => false | _ => true end = true) by (vm_compute; reflexivity).
  rewrite Es in X. discriminate X.
Qed.
Print Assumptions C106_limit_refuted.

(** ** Concrete cases *)
Lemma ns_scans doc : 0 < zlen doc -> zlen doc < 2^31 -> containsb doc [x26; x61] = false -> scans [OXmlDoc (Some doc); ONs true] doc [] 0.
Proof.
  intros H L C. split; [constructor; [cbn [go_value]; lia|]; constructor; [exact I | constructor]|]. rewrite app_nil_r.
  split; [intros _; apply containsb_false; exact C|]. split; [lia|]. split; [left; reflexivity|]. cbn. rewrite Z.sub_0_r. reflexivity.
Qed.
(** C36, C106: a repetition after a namespace declaration, with namespace awareness *)
Definition twice_ns : list byte := lit "<a><b c='' c='' xmlns:p='u'/></a>".
Example C36_never_case : forall s, runParser [OXmlDoc (Some twice_ns); ONs true] <> Parsed s.
Proof.
  intros s. apply (C36_repeated_attribute_never _ twice_ns [] 0 (SPlain []) [(tagA, GText [])] [lit "a"] (lit "b") [Attr (lit " ") (lit "c") [] [] x27 []] (lit " ") (lit "c") x3d (lit "'' xmlns:p='u'/></a>")).
  - apply ns_scans; reflexivity.
  - split; [reflexivity|]. split; [exists x61; eexists; split; [reflexivity | discriminate]|]. exact (open_items 1 [] ltac:(cbn; lia)).
  - split; [exists (lit "b"); split; [reflexivity | apply name_ok; reflexivity]|]. split; [split; vm_compute; discriminate|]. split; [vm_compute; discriminate|]. split; [constructor; [|constructor]|].
    + split; [reflexivity|]. split; [discriminate|]. split; [apply name_ok; reflexivity|]. split; [split; vm_compute; discriminate|]. split; [reflexivity|]. split; [reflexivity|]. split; [right; reflexivity|]. split; [constructor | vm_compute; discriminate].
    + split; [constructor; [intros [] | constructor]|]. split; [vm_compute; discriminate|]. split; [reflexivity | discriminate].
  - apply name_ok. reflexivity.
  - left. reflexivity.
  - left. reflexivity.
Qed.
(** C37: 255 elements around one more, with namespace awareness *)
Example C37_never_case : forall s, runParser [OXmlDoc (Some (nest 255)); ONs true] <> Parsed s.
Proof.
  intros s. apply (C37_too_deep_never _ (nest 255) [] 0 (SPlain []) (repeat (tagA, GText []) 255) (repeat (lit "a") 255 ++ []) (lit "a") x3e (skipn (3 * 256) (nest 255))).
  - apply ns_scans; vm_compute; reflexivity.
  - split; [vm_compute; reflexivity|]. split; [exists x61; eexists; split; [vm_compute; reflexivity | discriminate]|]. exact (open_items 255 [] ltac:(cbn; lia)).
  - apply name_ok. reflexivity.
  - apply not_name_byte. reflexivity.
  - vm_compute. reflexivity.
Qed.
(** C38: a name of 2048 letters, with namespace awareness *)
Definition long_ns : list byte := x3c :: repeat x61 2048 ++ lit "/>".
Example C38_never_case : forall s, runParser [OXmlDoc (Some long_ns); ONs true] <> Parsed s.
Proof.
  intros s. apply (C38_long_element_never _ long_ns [] 0 (SPlain []) [] [] (ns_scans long_ns eq_refl ltac:(vm_compute; reflexivity) ltac:(vm_compute; reflexivity)) (repeat x61 2048) x2f (lit ">")).
  - split; [vm_compute; reflexivity|]. split; [exists x61; eexists; split; [vm_compute; reflexivity | discriminate] | reflexivity].
  - exists (repeat x61 2048). split; [reflexivity | apply name_ok; vm_compute; reflexivity].
  - apply not_name_byte. reflexivity.
  - intros [X _]. vm_compute in X. apply X. reflexivity.
Qed.
