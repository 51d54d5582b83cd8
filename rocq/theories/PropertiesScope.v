(** Properties of namespace-aware parses of whole documents: which documents are
    accepted, and with which tokens.  SpecScope.v describes the scopes. *)
From Verif Require Import Lib XmlChar Buffer BufferProofs Reader ParserState ParserPrim ParserProc ParserMain
  SpecParse SpecChar SpecDoc SpecWindow SpecLoc SpecToken ParserOutcome DocScan DocBase DocBody PropertiesParse DocMain PropertiesQuirks DocShow DocCut PropertiesDoc
  SpecScope NsBase NsBody ScopeProofs.

(** [reads_ns opts doc off]: the options select the bytes of [doc] from byte [off] to
    its end, which is the end of the buffer, with namespace awareness. *)
Definition reads_ns (opts : list popt) (doc : list byte) (off : Z) : Prop :=
  Forall go_value opts /\ ns_of opts = true /\ 0 <= off < zlen doc /\ window_of opts = (Some doc, off, zlen doc - off).
(** The two malformed references that the comparison of URLs takes for "&amp;" and "&apos;" *)
Definition no_cut_refs (doc : list byte) : Prop := ~ contains doc (lit "&ap;") /\ ~ contains doc (lit "&aos;").

(** ** Lemmas *)
Lemma new_ns opts cf s : newVtdParser opts = Ok (cf, s) -> Rep cf no_scope [] (nsv s).
Proof.
  unfold newVtdParser. destruct (k_doc (applyPOpts opts)) as [doc|]; [|discriminate]. destruct (zlen doc =? 0); [discriminate|]. destruct (_ <? 0); [discriminate|]. destruct (_ || _); [discriminate|].
  unfold parserInit. change (newIntBuf [6]) with (Ok (nbuf [] 0)). cbn [obind]. change (newLongBuf [6]) with (Ok (nbuf [] 0)). cbn [obind].
  repeat (match goal with |- obind ?x _ = _ -> _ => destruct x end; [|discriminate..]; cbn [obind]). intros X. injection X as <- <-.
  constructor; cbn [nsv v_ns1 v_ns2 v_ns3 v_prefCount v_prefNames v_prefUrls].
  - split; [vm_compute; split; discriminate|]. split; [vm_compute; discriminate | intros N; elim N; reflexivity].
  - constructor.
  - split; [vm_compute; split; discriminate | vm_compute; discriminate].
  - reflexivity.
  - exists []. split; [reflexivity|]. split; [reflexivity|]. discriminate.
  - exists []. split; [reflexivity | constructor].
  - reflexivity.
  - split; [reflexivity|]. intros i nm X. destruct i; discriminate X.
  - intros i Hi. change (znth (repeat 0 256) i = Some 0). rewrite znth_nth by lia. apply nth_error_repeat. lia.
Qed.
Lemma reads_ns_new opts doc off : reads_ns opts doc off ->
  exists cf s, newVtdParser opts = Ok (cf, s) /\ c_doc cf = doc /\ c_docOffset cf = off /\ c_docLength cf = zlen doc - off /\ c_end cf = zlen doc /\
    c_ns cf = true /\ c_shallow cf = shallow_of opts /\ fresh off s /\ repr (vtdExp (c_docLength cf)) (s_vtd s) [] /\ Rep cf no_scope [] (nsv s).
Proof.
  intros (G & N & Ho & W). pose proof (new_spec opts G) as P. pose proof (new_vtd opts) as V. pose proof (new_ns opts) as X. rewrite W in P. destruct (newVtdParser opts) as [[cf s]|e|w]; [| |contradiction].
  - destruct P as ((Ed & _) & P1 & P2 & P3 & P4 & P5 & P6). cbn [fst snd] in *. injection Ed as ->. exists cf, s. repeat (split; [first [reflexivity | assumption | congruence | lia]|]). split; [apply V | apply X]; reflexivity.
  - destruct P as (_ & P). elim (P doc). split; [reflexivity|]. split; [intros ->; cbn in Ho; lia|]. lia.
Qed.
Lemma contains_at (doc l : list byte) i : (forall k b, znth l k = Some b -> znth doc (i + k) = Some b) -> 0 < zlen l -> contains doc l.
Proof.
  intros H L. assert (Hi : 0 <= i).
  { destruct (znth_some_iff l 0) as [_ [b E]]; [lia|]. pose proof (H _ _ E) as X. apply znth_range in X. lia. }
  assert (X : skipn (Z.to_nat i) doc = l ++ skipn (length l) (skipn (Z.to_nat i) doc)).
  { rewrite <- (firstn_skipn (length l) (skipn (Z.to_nat i) doc)) at 1. f_equal.
    assert (G : forall (x y : list byte), (forall k b, nth_error x k = Some b -> nth_error y k = Some b) -> firstn (length x) y = x).
    { induction x as [|b x IH]; intros y K; [reflexivity|]. destruct y as [|c y]; [specialize (K O b eq_refl); discriminate K|]. pose proof (K O b eq_refl) as E. injection E as ->. cbn [length firstn]. f_equal.
      apply IH. intros k b' E. exact (K (S k) b' E). }
    apply G. intros k b E. specialize (H (Z.of_nat k) b). rewrite !znth_nth in H by lia. rewrite Nat2Z.id in H. specialize (H E).
    replace (Z.to_nat (i + Z.of_nat k)) with (Z.to_nat i + k)%nat in H by lia. rewrite <- H. clear. revert k. generalize (Z.to_nat i). intros n. revert doc. induction n as [|n IH]; intros [|c doc] k; cbn [skipn Nat.add nth_error]; try reflexivity; [destruct k; reflexivity | apply IH]. }
  exists (firstn (Z.to_nat i) doc), (skipn (length l) (skipn (Z.to_nat i) doc)). rewrite <- X. symmetry. apply firstn_skipn.
Qed.
Ltac at_lit := let k := fresh "k" in let b := fresh in let E := fresh in let R := fresh in intros k b E; pose proof (znth_range _ _ _ E) as R;
  match type of R with _ <= _ < zlen ?l => let n := eval vm_compute in (zlen l) in change (zlen l) with n in R end;
  assert (k = 0 \/ k = 1 \/ k = 2 \/ k = 3 \/ k = 4) as [-> |[-> |[-> |[-> | ->]]]] by lia; first [lia | vm_compute in E; injection E as <-; rewrite ?Z.add_0_r; assumption].
Lemma ns_decided opts doc off d : reads_ns opts doc off -> zlen doc < 2^30 -> no_cut_refs doc -> wf d -> render d = window doc off ->
  match scopes_of d with
  | Fine _ => exists s, runParser opts = Parsed s /\ result opts off (zlen doc - off) d s
  | Refused => forall s, runParser opts <> Parsed s
  | Beyond => True
  end.
Proof.
  intros R L (C1 & C2) W E. destruct (reads_ns_new opts doc off R) as (cf & s & EN & E1 & E2 & E3 & E4 & E5 & E6 & F & V & P). pose proof R as (G & N & Ho & _). subst doc off.
  assert (A : DocScan.At cf (c_docOffset cf) (render d)) by (split; [lia | symmetry; exact E]).
  pose proof (parse_ns cf E4 L E5) as X. unfold runParser. rewrite EN.
  specialize (X (fun i H1 H2 H3 H4 => C1 (contains_at (c_doc cf) (lit "&ap;") i ltac:(at_lit) ltac:(vm_compute; reflexivity)))).
  specialize (X (fun i H1 H2 H3 H4 H5 => C2 (contains_at (c_doc cf) (lit "&aos;") i ltac:(at_lit) ltac:(vm_compute; reflexivity)))).
  specialize (X s d F V ltac:(lia) ltac:(lia) A W P). destruct (scopes_of d) as [k| |]; [| |exact I].
  - destruct X as (s' & X & FV & FL). rewrite X. exists s'. split; [reflexivity|]. unfold result. rewrite <- E6. rewrite <- E3.
    split; [|split; [exact FL | exact FV]]. apply (toArray_repr _ _ _ FV).
    unfold zlen at 1. rewrite map_length. fold (zlen (tokens (c_docOffset cf) d)). pose proof (tokens_count (c_docOffset cf) d W). apply DocScan.At_len in A. lia.
  - intros sf K. destruct (parse cf s) as [[] s1|e s1|w|] eqn:Ep; try discriminate K. exact (X s1 eq_refl).
Qed.

(** ** C93: namespace-aware acceptance follows the scopes. *)
Theorem C93_scopes_decide : forall opts doc off d, reads_ns opts doc off -> zlen doc < 2^30 -> no_cut_refs doc -> wf d -> render d = window doc off ->
  within_limits d = true -> ((exists s, runParser opts = Parsed s) <-> exists k, scopes_of d = Fine k).
Proof.
  intros opts doc off d R L C W E Li. pose proof (ns_decided opts doc off d R L C W E) as X. pose proof (within_answer d W Li) as N.
  destruct (scopes_of d) as [k| |]; [| |contradiction].
  - destruct X as (s & X & _). split; [intros _; eauto | intros _; eauto].
  - split; [intros (s & K); elim (X s K) | intros (k & K); discriminate K].
Qed.
Print Assumptions C93_scopes_decide.
(** An accepted document has the tokens and tables it has without namespace awareness. *)
Theorem C93_same_tokens : forall opts doc off d s, reads_ns opts doc off -> zlen doc < 2^30 -> no_cut_refs doc -> wf d -> render d = window doc off ->
  within_limits d = true -> runParser opts = Parsed s -> exports s (map word (tokens off d)) /\ result opts off (zlen doc - off) d s.
Proof.
  intros opts doc off d s R L C W E Li K. pose proof (ns_decided opts doc off d R L C W E) as X. pose proof (within_answer d W Li) as N.
  destruct (scopes_of d) as [k| |]; [| elim (X s K) |contradiction]. destruct X as (s' & X & H). rewrite K in X. injection X as <-. split; [exact (proj1 H) | exact H].
Qed.
Print Assumptions C93_same_tokens.
(** Nothing else is accepted, if no '&' is followed by 'a'. *)
Theorem C93_only_these : forall opts doc off s, reads_ns opts doc off -> zlen doc < 2^30 -> ~ contains doc (lit "&a") -> runParser opts = Parsed s ->
  exists d, wf d /\ render d = window doc off /\ (within_limits d = true -> exists k, scopes_of d = Fine k).
Proof.
  intros opts doc off s R L C K. pose proof R as (G & N & Ho & W).
  assert (S : scans opts doc [] off) by (split; [exact G|]; split; [intros _; rewrite app_nil_r; exact C|]; split; [exact Ho|]; split; [left; reflexivity|]; rewrite app_nil_r; exact W).
  destruct (scan_inv _ _ _ _ _ S K) as (_ & d & Wd & Sh & _). assert (E : render d = window doc off) by (symmetry; apply shows_all; exact Sh).
  exists d. split; [exact Wd|]. split; [exact E|]. intros Li.
  assert (C' : no_cut_refs doc) by (split; intros (x & y & Z); apply C; [exists x, (lit "p;" ++ y) | exists x, (lit "os;" ++ y)]; exact Z).
  apply (C93_scopes_decide opts doc off d R L C' Wd E Li). eauto.
Qed.
Print Assumptions C93_only_these.

(** ** C94: prefixes declared on the root element only. *)
Theorem C94_root_declarations : forall opts doc off d, reads_ns opts doc off -> zlen doc < 2^30 -> no_cut_refs doc -> wf d -> render d = window doc off ->
  within_limits d = true -> root_only d = true -> ((exists s, runParser opts = Parsed s) <-> root_scope_ok d = true).
Proof.
  intros opts doc off d R L C W E Li Ro. rewrite (C93_scopes_decide opts doc off d R L C W E Li), <- (root_only_answer d W Li Ro).
  destruct (scopes_of d) as [k| |]; cbn [is_fine]; split; intros X; try discriminate; [reflexivity | eauto | destruct X; discriminate | destruct X; discriminate].
Qed.
Print Assumptions C94_root_declarations.

(** The cases: the root declares the prefix "p", its child has the name [n]. *)
Lemma name_dec b t : isNameStartChar (b2z b) = true -> forallb (fun c => isNameChar (b2z c)) t = true -> is_name (b :: t).
Proof.
  intros H F. exists b, t. split; [reflexivity|]. split; [apply isNameStart_byte, H|]. apply Forall_forall. intros c Ic. rewrite forallb_forall in F. apply isName_byte, F, Ic.
Qed.
Definition rootP : markup := MStart (lit "r") [Attr (lit " ") (lit "xmlns:p") [] [] x27 (lit "u")] [] false.
Definition childOf (n : list byte) : document := Doc (SPlain []) [(rootP, GText []); (MStart n [] [] true, GText [])] (MEnd (lit "r") []) [] [].
Lemma wf_child b t : isNameStartChar (b2z b) = true -> forallb (fun c => isNameChar (b2z c)) t = true -> name_fits 1 (b :: t) -> wf (childOf (b :: t)).
Proof.
  intros H F N. split; [|split; [|reflexivity]].
  - exists x72. eexists. split; [reflexivity | discriminate].
  - cbn [childOf d_start junk_of d_items d_final wf_body]. split; [|split; [intros []|split]].
    + split; [exists (lit "r"); split; [reflexivity | apply name_dec; reflexivity]|]. split; [split; vm_compute; discriminate|]. split; [vm_compute; discriminate|].
      split; [|split; [constructor; [intros [] | constructor] | split; [vm_compute; discriminate | reflexivity]]].
      constructor; [|constructor]. split; [reflexivity|]. split; [discriminate|]. split; [apply name_dec; reflexivity|]. split; [split; vm_compute; discriminate|]. split; [reflexivity|]. split; [reflexivity|]. split; [right; reflexivity|].
      split; [|vm_compute; discriminate]. apply V_char; [discriminate | discriminate | | constructor]. vm_compute. intros X. repeat destruct X as [X|X]; discriminate || contradiction.
    + split; [constructor|]. split; [intros [X|X]; discriminate X | discriminate].
    + split; [|split; [intros _; discriminate|split]].
      * split; [exists (b :: t); split; [reflexivity | apply name_dec; assumption]|]. split; [exact N|]. split; [vm_compute; discriminate|]. split; [constructor|]. split; [constructor|]. split; [vm_compute; discriminate | reflexivity].
      * split; [constructor|]. split; [intros [X|X]; discriminate X | discriminate].
      * split; [split; reflexivity|]. split; [exact I | reflexivity].
Qed.
Definition optsP (n : list byte) : list popt := [OXmlDoc (Some (render (childOf n))); ONs true].
Lemma reads_child n : zlen n < 1000 -> reads_ns (optsP n) (render (childOf n)) 0 /\ zlen (render (childOf n)) < 2^30.
Proof.
  intros L. assert (E : render (childOf n) = lit "<r xmlns:p='u'><" ++ n ++ lit "/></r>").
  { unfold render, d_body. cbn [childOf d_start junk_of d_items d_final d_epis d_end render_start render_epilog render_body]. rewrite app_nil_r. unfold render_first. cbn [lead rootP render_markup app].
    rewrite <- !app_assoc. reflexivity. }
  assert (Z0 : 0 < zlen (render (childOf n)) < 2^30) by (rewrite E, !zlen_app; change (zlen (lit "<r xmlns:p='u'><")) with 16; change (zlen (lit "/></r>")) with 6; pose proof (zlen_nonneg n); lia).
  split; [|lia]. split; [constructor; [cbn [go_value]; lia | constructor; [exact I | constructor]]|]. split; [reflexivity|]. split; [lia|]. rewrite Z.sub_0_r. reflexivity.
Qed.
Example C93_example : exists s, runParser (optsP (lit "p:c")) = Parsed s.
Proof.
  destruct (reads_child (lit "p:c") ltac:(vm_compute; reflexivity)) as (R & L).
  refine (proj2 (C93_scopes_decide (optsP (lit "p:c")) _ 0 (childOf (lit "p:c")) R L _ _ _ _) _).
  - split; intros (x & y & E); assert (I : In x26 (render (childOf (lit "p:c")))) by (rewrite E; apply in_or_app; right; left; reflexivity); vm_compute in I; repeat destruct I as [I|I]; discriminate || contradiction.
  - apply wf_child; try reflexivity. split; vm_compute; discriminate.
  - reflexivity.
  - vm_compute. reflexivity.
  - eexists. vm_compute. reflexivity.
Qed.

(** An undeclared prefix: no option makes a namespace-aware parse accept it. *)
Lemma no_amp (l x : list byte) : In x26 x -> ~ In x26 l -> ~ contains l x.
Proof. intros I N (p & q & ->). apply N, in_or_app. right. apply in_or_app. left. exact I. Qed.
Example C94_example : exists d, wf d /\ within_limits d = true /\ root_only d = true /\ root_scope_ok d = false /\
  forall opts, reads_ns opts (render d) 0 -> forall s, runParser opts <> Parsed s.
Proof.
  exists (childOf (lit "q:c")). assert (W : wf (childOf (lit "q:c"))) by (apply wf_child; try reflexivity; split; vm_compute; discriminate).
  split; [exact W|]. split; [vm_compute; reflexivity|]. split; [vm_compute; reflexivity|]. split; [vm_compute; reflexivity|]. intros opts R s K.
  assert (N : ~ In x26 (render (childOf (lit "q:c")))) by (vm_compute; intros I; repeat destruct I as [I|I]; discriminate || contradiction).
  assert (X : root_scope_ok (childOf (lit "q:c")) = true); [|vm_compute in X; discriminate X].
  refine (proj1 (C94_root_declarations opts _ 0 (childOf (lit "q:c")) R (proj2 (reads_child (lit "q:c") ltac:(vm_compute; reflexivity))) _ W eq_refl _ _) (ex_intro _ s K)).
  - split; (apply no_amp; [left; reflexivity | exact N]).
  - vm_compute. reflexivity.
  - vm_compute. reflexivity.
Qed.
