(** Properties of NewVtdParser and Parse that do not depend on the document
    grammar: construction, termination, panics, error positions, encodings. *)
From Verif Require Import Lib XmlChar Buffer BufferProofs Reader ParserState ParserPrim ParserProc ParserMain SpecParse ParserWp ParserInvMain ParserOutcome.

(** ** What the options mean, read off the option list *)
Definition opt_window (o : popt) : list (option (list byte) * Z * Z) :=
  match o with
  | OXmlDoc d => [(d, 0, match d with Some l => zlen l | None => 0 end)]
  | OCustom d off len => [(d, off, len)]
  | _ => []
  end.
Definition window_of (opts : list popt) : option (list byte) * Z * Z := last (flat_map opt_window opts) (None, 0, 0).
Definition ns_of (opts : list popt) : bool :=
  last (flat_map (fun o => match o with ONs b => [b] | _ => [] end) opts) false.
Definition shallow_of (opts : list popt) : bool :=
  last (flat_map (fun o => match o with OLcDepth 3 => [true] | OLcDepth 5 => [false] | _ => [] end) opts) true.
(** Values a Go caller can pass: int arguments, slices of at most 2^63-1 bytes. *)
Definition go_value (o : popt) : Prop :=
  match o with
  | OXmlDoc (Some d) => zlen d < 2^63
  | OCustom d off len => -2^63 <= off < 2^63 /\ -2^63 <= len < 2^63 /\ (forall l, d = Some l -> zlen l < 2^63)
  | _ => True
  end.

Lemma last_app_nil {A} (l : list A) d : last (l ++ []) d = last l d.
Proof. rewrite app_nil_r. reflexivity. Qed.
Lemma last_snoc {A} (l : list A) x d : last (l ++ [x]) d = x.
Proof. apply last_last. Qed.
Lemma applyPOpts_snoc opts o : applyPOpts (opts ++ [o]) = applyOpt o (applyPOpts opts).
Proof. unfold applyPOpts. rewrite fold_left_app. reflexivity. Qed.
Lemma flat_map_snoc {A B} (f : A -> list B) l x : flat_map f (l ++ [x]) = flat_map f l ++ f x.
Proof. rewrite flat_map_app. cbn. rewrite app_nil_r. reflexivity. Qed.

Lemma applyPOpts_spec opts : Forall go_value opts ->
  k_doc (applyPOpts opts) = fst (fst (window_of opts)) /\
  k_offset (applyPOpts opts) = snd (fst (window_of opts)) /\
  k_length (applyPOpts opts) = snd (window_of opts) /\
  k_end (applyPOpts opts) = wrap64 (k_offset (applyPOpts opts) + k_length (applyPOpts opts)) /\
  -2^63 <= k_offset (applyPOpts opts) < 2^63 /\ -2^63 <= k_length (applyPOpts opts) < 2^63 /\
  docLen (k_doc (applyPOpts opts)) < 2^63 /\
  k_ns (applyPOpts opts) = ns_of opts /\ k_shallow (applyPOpts opts) = shallow_of opts.
Proof.
  induction opts as [|o opts IH] using rev_ind; intros F.
  - cbn. repeat split; lia.
  - apply Forall_app in F. destruct F as [F1 F2]. apply Forall_inv in F2. specialize (IH F1).
    rewrite applyPOpts_snoc. unfold window_of, ns_of, shallow_of in *. rewrite !flat_map_snoc.
    destruct o as [d|d off len|b|b|d]; cbn [opt_window applyOpt k_doc k_offset k_length k_end k_ns k_shallow]; rewrite ?last_app_nil, ?last_snoc; cbn [fst snd].
    + assert (D : 0 <= docLen d < 2^63).
      { unfold docLen. cbn [go_value] in F2. destruct d; [pose proof (zlen_nonneg l)|]; lia. }
      change (match d with Some l => zlen l | None => 0 end) with (docLen d).
      repeat split; try tauto; rewrite ?wrap64_id; lia.
    + cbn [go_value] in F2. repeat split; try tauto; try lia. unfold docLen. destruct d as [l|]; [apply F2; reflexivity | lia].
    + intuition.
    + intuition.
    + repeat split; try tauto. destruct IH as (_ & _ & _ & _ & _ & _ & _ & _ & IH). rewrite IH.
      destruct (Z.eqb_spec d 3) as [->|]; [rewrite last_snoc; reflexivity|].
      destruct (Z.eqb_spec d 5) as [->|]; [rewrite last_snoc; reflexivity|].
      destruct d as [|[[[?|?|]|[?|[?|?|]|]|]|[?|?|]|]|]; rewrite ?last_app_nil; first [reflexivity | congruence].
Qed.

(** ** C29: construction *)
Definition good_window (w : option (list byte) * Z * Z) (doc : list byte) : Prop :=
  let '(d, off, len) := w in
  d = Some doc /\ doc <> [] /\ 0 <= off /\ len <> 0 /\ 0 <= off + len <= zlen doc.

Lemma new_spec opts : Forall go_value opts ->
  match newVtdParser opts with
  | Ok (cf, s) => good_window (window_of opts) (c_doc cf) /\
      c_docOffset cf = snd (fst (window_of opts)) /\ c_docLength cf = snd (window_of opts) /\
      c_end cf = c_docOffset cf + c_docLength cf /\ c_ns cf = ns_of opts /\ c_shallow cf = shallow_of opts /\
      fresh (c_docOffset cf) s
  | Err e => err_type e = TInvalidArgument /\ forall doc, ~ good_window (window_of opts) doc
  | Panic _ => False
  end.
Proof.
  intros F. destruct (applyPOpts_spec opts F) as (E1 & E2 & E3 & E4 & R1 & R2 & R3 & E5 & E6).
  unfold newVtdParser. rewrite E1 in *. destruct (window_of opts) as [[d off] len]. cbn [fst snd] in *.
  set (k := applyPOpts opts) in *. clearbody k. destruct d as [doc|]; cbn [docLen] in R3.
  2:{ split; [reflexivity|]. intros doc. cbn. intuition discriminate. }
  unfold good_window. destruct (zlen doc =? 0) eqn:Z0.
  { split; [reflexivity|]. intros doc' H. assert (doc = []) by (apply zlen_0_nil; lia). intuition congruence. }
  rewrite E2, E3. destruct (off <? 0) eqn:Z1.
  { split; [reflexivity|]. intros doc' H. lia. }
  rewrite E2, E3 in E4. destruct ((len =? 0) || (zlen doc <? wrap64 (off + len))) eqn:Z2.
  { split; [reflexivity|]. intros doc' (A & _ & _ & A1 & A2). injection A as <-. 
    assert (wrap64 (off + len) = off + len) by (apply wrap64_id; lia). lia. }
  pose proof (parserInit_spec doc k ltac:(lia)) as P. destruct (parserInit doc k) as [[cf s]|e|w]; [| |exact P].
  - destruct P as (P1 & -> & P2). cbn [c_doc c_docOffset c_docLength c_end c_ns c_shallow].
    assert (k_end k = off + len).
    { unfold wrap64 in *. lia. }
    repeat split; try congruence; try lia.
    + intros ->. cbn in Z0. discriminate.
  - destruct P as [P1 P2]. split; [exact P2|]. intros doc' (A & _ & _ & A1 & A2). injection A as <-.
    assert (wrap64 (off + len) = off + len) by (apply wrap64_id; lia). lia.
Qed.

Theorem C29_construction_exact : forall opts, Forall go_value opts ->
  ((exists cf s, newVtdParser opts = Ok (cf, s)) <-> (exists doc, good_window (window_of opts) doc)) /\
  (forall e, newVtdParser opts = Err e -> err_type e = TInvalidArgument) /\
  (forall w, newVtdParser opts <> Panic w) /\
  (forall cf s, newVtdParser opts = Ok (cf, s) ->
     (Some (c_doc cf), c_docOffset cf, c_docLength cf) = window_of opts /\ c_end cf = c_docOffset cf + c_docLength cf /\
     c_ns cf = ns_of opts /\ c_shallow cf = shallow_of opts /\ s_roff s = c_docOffset cf).
Proof.
  intros opts F. pose proof (new_spec opts F) as P. destruct (newVtdParser opts) as [[cf s]|e|w]; [| |contradiction].
  - destruct P as (G & P1 & P2 & P3 & P4 & P5 & P6). split; [|split; [discriminate|split; [discriminate|]]].
    + split; [intros _; exists (c_doc cf); exact G | eauto].
    + intros cf' s' [= <- <-]. split; [|split; [exact P3|split; [exact P4|split; [exact P5|]]]].
      * destruct (window_of opts) as [[d off] len]. cbn in *. destruct G as [-> _]. congruence.
      * destruct P6 as (? & ? & ? & ? & ? & ? & ? & ? & ? & -> & _). reflexivity.
  - destruct P as [P1 P2]. split; [|split; [|split; discriminate]].
    + split; [intros (cf & s & H); discriminate | intros (doc & H); destruct (P2 doc H)].
    + intros e' [= <-]. exact P1.
Qed.
Print Assumptions C29_construction_exact.
Example C29_example : exists cf s, newVtdParser [ONs true; OCustom (Some (bytes_of "xx<a/>yy")) 2 4; ONs false] = Ok (cf, s) /\
  c_docOffset cf = 2 /\ c_end cf = 6 /\ c_ns cf = false.
Proof. eexists _, _. vm_compute. repeat split. Qed.

(** The property as stated (a positive length is required) fails: a negative
    length is accepted when offset + length >= 0. *)
Theorem C29_negative_length_refuted : exists opts doc off len, Forall go_value opts /\ len < 0 /\
  opts = [OCustom (Some doc) off len] /\ exists cf s, newVtdParser opts = Ok (cf, s).
Proof.
  exists [OCustom (Some (bytes_of "<a/>")) 4 (-1)], (bytes_of "<a/>"), 4, (-1).
  split; [|split; [reflexivity|split; [reflexivity|eexists _, _; vm_compute; reflexivity]]].
  constructor; [|constructor]. cbn [go_value]. split; [lia|]. split; [lia|]. intros l [= <-]. vm_compute. reflexivity.
Qed.
Print Assumptions C29_negative_length_refuted.

(** ** The outcome of New and Parse *)
Lemma run_spec opts : Forall go_value opts ->
  match runParser opts with
  | NewFailed e => err_type e = TInvalidArgument
  | NewPanicked _ => False
  | o => exists cf s, newVtdParser opts = Ok (cf, s) /\
      0 <= c_docOffset cf /\ 0 <= c_end cf <= zlen (c_doc cf) /\ c_end cf = c_docOffset cf + c_docLength cf /\
      c_ns cf = ns_of opts /\ (Some (c_doc cf), c_docOffset cf, c_docLength cf) = window_of opts /\
      match o with
      | Parsed s' => bufsOk s' /\ ~ utf16_sig cf
      | Rejected e s' => bufsOk s' /\ (errOk cf e \/ (utf16_sig cf /\ errOk16 cf e))
      | Panicked w => panicOk cf w \/ (w = PnDocIndex /\ cut_signature (c_doc cf) (c_docOffset cf))
      | _ => divOk cf
      end
  end.
Proof.
  intros F. pose proof (new_spec opts F) as P. unfold runParser. destruct (newVtdParser opts) as [[cf s]|e|w]; [|tauto|exact P].
  destruct P as (G & P1 & P2 & P3 & P4 & P5 & P6).
  assert (H : 0 <= c_docOffset cf /\ 0 <= c_end cf <= zlen (c_doc cf) /\ (Some (c_doc cf), c_docOffset cf, c_docLength cf) = window_of opts).
  { destruct (window_of opts) as [[d off] len]. cbn in *. destruct G as (-> & G). repeat split; try lia. congruence. }
  destruct H as (H1 & H2 & H3).
  pose proof (parse_outcome cf H1 H2 P3 s P6) as Q. unfold parseOk in Q.
  destruct (parse cf s); exists cf, s; repeat (first [exact Q | split; [first [assumption | reflexivity | tauto]|]]).
Qed.

(** ** C30, C31: termination *)
Theorem C30_parse_returns : forall opts, Forall go_value opts -> ns_of opts = false -> runParser opts <> Diverged.
Proof.
  intros opts F N E. pose proof (run_spec opts F) as P. rewrite E in P. destruct P as (cf & s & _ & _ & _ & _ & P & _ & D & _). congruence.
Qed.
Print Assumptions C30_parse_returns.
Example C30_example : exists s, runParser [OXmlDoc (Some (bytes_of "<a b='c'><d>x&amp;y</d><!-- z --></a>"))] = Parsed s.
Proof. eexists. vm_compute. reflexivity. Qed.

(** With namespace awareness there is a document on which it loops for ever. *)
Definition hang_doc : list byte :=
  bytes_of "<a xmlns:p='u' xmlns:q='v' p:x='1' q:x='2'><!-- &#xFFFFFFFF; --></a>".
Theorem C31_termination_refuted : exists doc, runParser [OXmlDoc (Some doc); ONs true] = Diverged.
Proof. exists hang_doc. vm_compute. reflexivity. Qed.
Print Assumptions C31_termination_refuted.
(** The divergence is real, not an artefact of the fuel: comparing the URL 'u'
    (offset 12, length 1) of that document with itself makes no progress towards
    an end however many iterations are allowed. *)
Theorem C31_url_loop_never_ends : forall n s, s_enc s = 0 -> s_inc s = 1 -> s_single s = true -> s_rascii s = false ->
  matchUrlLoop (mkCfg hang_doc 0 (zlen hang_doc) (zlen hang_doc) true true) n 12 1 12 1 s = RDiverge.
Proof.
  intros n s H1 H2 H3 H4. set (cf := mkCfg hang_doc 0 (zlen hang_doc) (zlen hang_doc) true true).
  assert (C : forall o, In o (map Z.of_nat (seq 12 37)) -> exists v, getCharResolved cf o s = ROk v s /\ In (o + Z.shiftr v 32) (map Z.of_nat (seq 12 37))).
  { intros o Ho. destruct s. cbn in H1, H2, H3, H4. subst. vm_compute in Ho.
    repeat (destruct Ho as [<-|Ho]; [eexists; split; [vm_compute; reflexivity | vm_compute; tauto]|]). destruct Ho. }
  assert (G : forall n o, In o (map Z.of_nat (seq 12 37)) -> matchUrlLoop cf n o 1 o 1 s = RDiverge).
  2:{ apply G. vm_compute. left. reflexivity. }
  clear n. induction n as [|n IH]; [reflexivity|]. intros o Ho. destruct (C o Ho) as (v & E & Hv). cbn [matchUrlLoop].
  destruct (o <? o + 1) eqn:L; [|lia]. cbn [andb]. cbv iota. rewrite bindE, E. rewrite bindE, E. rewrite Z.eqb_refl. apply IH. exact Hv.
Qed.
Print Assumptions C31_url_loop_never_ends.
Theorem C31_parse_returns_partial : forall opts doc off len, Forall go_value opts ->
  window_of opts = (Some doc, off, len) -> ~ long_reference doc -> runParser opts <> Diverged.
Proof.
  intros opts doc off len F W N E. pose proof (run_spec opts F) as P. rewrite E, W in P.
  destruct P as (cf & s & _ & _ & _ & _ & _ & Q & _ & D). injection Q as Q1 Q2 Q3. apply N. rewrite <- Q1. exact D.
Qed.
Print Assumptions C31_parse_returns_partial.
(** A document with references, one of them in a declaration, and the hanging one *)
Definition refs_doc : list byte := bytes_of "<p:a xmlns:p='u&#x10FFFF;' p:b='&amp;'>&#10;</p:a>".
Example C31_example : (exists s, runParser [OXmlDoc (Some refs_doc); ONs true] = Parsed s) /\ ~ long_reference refs_doc /\ long_reference hang_doc.
Proof.
  split; [eexists; vm_compute; reflexivity|]. split.
  - intros (a & b & E & N). unfold refs_doc in E. set (d := bytes_of _) in E. vm_compute in d. subst d.
    repeat (destruct a as [|? a]; [try discriminate E; injection E as <-; apply N; vm_compute; tauto | injection E as _ E]). destruct a; discriminate E.
  - exists (firstn 48 hang_doc), (skipn 50 hang_doc). split; [vm_compute; reflexivity|]. vm_compute. intros H. repeat destruct H as [H|H]; discriminate || contradiction.
Qed.

(** ** C32: panics *)
(** Three documents on which Parse panics: cut after '<' of the epilog, an end tag
    before any start tag, and the one-byte document "<". *)
Theorem C32_no_panic_refuted :
  runParser [OXmlDoc (Some (bytes_of "<a/><"))] = Panicked PnSkipAtEnd /\
  runParser [OXmlDoc (Some (bytes_of "</a>"))] = Panicked PnTagStack /\
  runParser [OXmlDoc (Some (bytes_of "<"))] = Panicked PnDocIndex.
Proof.
  split; [vm_compute; reflexivity|]. split; [vm_compute; reflexivity|].
  vm_compute. reflexivity.
Qed.
Print Assumptions C32_no_panic_refuted.

(** The sites at which Parse can panic: besides the three above the attribute name
    table, and the first needs the byte after the window to be other than NUL.  With
    namespace awareness a namespace name read past the end of the document; that a
    page cannot be missing from a namespace table is C32_panic_sites_partial in
    PropertiesPanic.v. *)
Theorem panic_sites : forall opts doc off len w, Forall go_value opts ->
  window_of opts = (Some doc, off, len) -> runParser opts = Panicked w ->
  (w = PnSkipAtEnd /\ znth doc (off + len) <> Some x00) \/ w = PnTagStack \/ w = PnAttrNames \/
  (w = PnDocIndex /\ cut_signature doc off) \/
  (ns_of opts = true /\ (w = PnDocIndex \/ w = PnPage)).
Proof.
  intros opts doc off len w F W E. pose proof (run_spec opts F) as P. rewrite E, W in P.
  destruct P as (cf & s & _ & _ & _ & P3 & P & Q & D). injection Q as Q1 Q2 Q3.
  rewrite Q1, Q2 in D. unfold panicOk, padded, nsPanic in D. rewrite P3, Q1, Q2, Q3 in D. rewrite P in D. intuition discriminate.
Qed.
(** a well-formed document on which namespace-aware Parse panics and plain Parse does not *)
Theorem C32_namespace_refuted :
  let d := Some (bytes_of "<r xmlns:p='u' xmlns:q='v' p:a='' p:b=''><b p:x='' q:x=''/></r>") in
  runParser [OXmlDoc d; ONs true] = Panicked PnDocIndex /\ exists s, runParser [OXmlDoc d] = Parsed s.
Proof. split; [vm_compute; reflexivity|]. eexists. vm_compute. reflexivity. Qed.
Print Assumptions C32_namespace_refuted.
Example C32_example : exists w, runParser [OCustom (Some (bytes_of "<a/><")) 0 5] = Panicked w /\
  runParser [OCustom (Some (bytes_of "<a/><" ++ [x00])) 0 5] <> Panicked w.
Proof. exists PnSkipAtEnd. split; [vm_compute; reflexivity|]. vm_compute. discriminate. Qed.

(** ** C49: error positions *)
(** The line and column an error carries, if any. *)
Fixpoint reported (e : goerr) : option (Z * Z) :=
  match e with
  | EParse _ p => p
  | EInternal _ (Some e') => reported e'
  | EInvalidArg _ _ (Some e') => reported e'
  | _ => None
  end.
Lemma errOk_reported cf e l c : errOk cf e -> reported e = Some (l, c) ->
  exists o, c_docOffset cf <= o <= zlen (c_doc cf) /\ line_col (c_doc cf) (c_docOffset cf) o l c.
Proof.
  revert e l c. fix IH 1. intros e; destruct e as [? ? [e'|]|? [e'|]|? p| | | | |]; cbn; intros l c H E; try discriminate.
  - exact (IH e' l c H E).
  - exact (IH e' l c H E).
  - subst p. exact H.
Qed.
Lemma errOk16_reported cf e l c : errOk16 cf e -> reported e = Some (l, c) ->
  l = 1 /\ exists o, c_docOffset cf <= o <= zlen (c_doc cf) /\ c = o / 2 + 1.
Proof.
  revert e l c. fix IH 1. intros e; destruct e as [? ? [e'|]|? [e'|]|? p| | | | |]; cbn; intros l c H E; try discriminate.
  - exact (IH e' l c H E).
  - exact (IH e' l c H E).
  - subst p. exact H.
Qed.
Theorem C49_error_position : forall opts doc off len e s l c, Forall go_value opts ->
  window_of opts = (Some doc, off, len) -> runParser opts = Rejected e s -> reported e = Some (l, c) ->
  (exists o, off <= o <= zlen doc /\ line_col doc off o l c) \/
  ((bytes_at doc off sigBE \/ bytes_at doc off sigLE) /\ l = 1 /\ exists o, off <= o <= zlen doc /\ c = o / 2 + 1).
Proof.
  intros opts doc off len e s l c F W E R. pose proof (run_spec opts F) as P. rewrite E, W in P.
  destruct P as (cf & s0 & _ & _ & _ & _ & _ & Q & _ & D). injection Q as Q1 Q2 Q3. rewrite <- Q1, <- Q2.
  destruct D as [D|[S D]]; [left; exact (errOk_reported cf e l c D R)|]. right.
  split; [exact S | exact (errOk16_reported cf e l c D R)].
Qed.
Print Assumptions C49_error_position.
Example C49_example : exists s, runParser [OXmlDoc (Some (bytes_of "<a>" ++ [x0a] ++ bytes_of "</b>"))] = Rejected (EParse "start/end tag mismatch" (Some (2, 5))) s.
Proof. eexists. vm_compute. reflexivity. Qed.
