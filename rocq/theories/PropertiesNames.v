(** Visiting the children of the root and reading their names. *)
From Verif Require Import Lib XmlChar Buffer BufferProofs SpecBuffer Reader ParserState ParserPrim ParserProc ParserMain SpecParse ParserWp ParserOutcome ParserFrame
  SpecToken TokenProofs SpecNav Nav NavStrProofs PropertiesNav NavMoveProofs NavCacheProofs SpecChar SpecDoc SpecWindow SpecLoc SpecPart DocScan DocBase DocLoc DocMain DocShow DocCut NavParsed PropertiesParse PropertiesQuirks PropertiesDoc PartProofs PropertiesPages PropertiesTree PropertiesRead.

(** ** The names of the elements of one level, in document order; the root is the
    only element of level 0. *)
Definition name_here (k : Z) (st : list (list byte)) (m : markup) : list (list byte) :=
  match m with MStart n _ _ _ => if zlen st =? k then [n] else [] | _ => [] end.
Fixpoint names_in (k : Z) (st : list (list byte)) (l : list (markup * gap)) (f : markup) : list (list byte) :=
  match l with [] => name_here k st f | (m, _) :: t => name_here k st m ++ names_in k (after m st) t f end.
Definition names_of_level (k : Z) (d : document) : list (list byte) := names_in k [] (d_items d) (d_final d).

(** ** They are the parts of the tokens of that level. *)
Fixpoint sel (k : Z) (ts : list tok) (xs : list (list byte)) : list (list byte) :=
  match ts, xs with
  | t :: ts', x :: xs' => (if (t_type t =? 0) && (t_depth t =? k) then [x] else []) ++ sel k ts' xs'
  | _, _ => []
  end.
Lemma sel_app k a : forall b c e, length a = length b -> sel k (a ++ c) (b ++ e) = sel k a b ++ sel k c e.
Proof. induction a as [|t a IH]; intros [|x b] c e L; try discriminate L; [reflexivity|]. cbn [app sel]. rewrite <- app_assoc, IH by (cbn [length] in L; lia). reflexivity. Qed.
Lemma sel_none k a : forall b, Forall (fun t => t_type t <> 0) a -> sel k a b = [].
Proof. induction a as [|t a IH]; intros [|x b] F; try reflexivity. inversion F as [|? ? F1 F2]; subst. cbn [sel]. replace (t_type t =? 0) with false by lia. exact (IH b F2). Qed.
Lemma attrs_len p d l : length (attrs_toks p d l) = length (flat_map attr_parts l).
Proof. revert p. induction l as [|a l IH]; intros p; [reflexivity|]. cbn [attrs_toks flat_map]. rewrite !app_length, IH. reflexivity. Qed.
Lemma attrs_type p d l : Forall (fun t => t_type t <> 0) (attrs_toks p d l).
Proof. revert p. induction l as [|a l IH]; intros p; [constructor|]. cbn [attrs_toks]. apply Forall_app. split; [|apply IH]. repeat constructor; cbn [t_type]; [destruct (ns_name _)|]; discriminate. Qed.
Lemma markup_sel k j p st m : zlen (render_markup m) <= max_token ->
  length (markup_toks j p (depth st) m) = length (markup_parts m) /\ sel k (markup_toks j p (depth st) m) (markup_parts m) = name_here k st m.
Proof.
  intros L. destruct m as [n atts t e|n w|x|x|n [(b, v)|]|x]; cbn [markup_toks markup_parts name_here render_markup] in *; rewrite ?zlen_app in L; try (split; reflexivity).
  - split; [cbn [length]; rewrite attrs_len; reflexivity|]. cbn [sel t_type t_depth]. rewrite sel_none by apply attrs_type. rewrite app_nil_r. change (0 =? 0) with true. cbn [andb].
    replace (depth st + 1) with (zlen st) by (unfold depth; lia). reflexivity.
  - change (zlen (lit "!--")) with 3 in L. pose proof (zlen_nonneg (lit "-->")). rewrite text_short by lia. split; reflexivity.
  - change (zlen (lit "![CDATA[")) with 8 in L. pose proof (zlen_nonneg (lit "]>")). rewrite text_short by lia. split; reflexivity.
Qed.
Lemma body_sel k l : forall j p st f, zlen (render_body j l f) <= max_token ->
  length (body_toks j p st l f) = length (body_parts l f) /\ sel k (body_toks j p st l f) (body_parts l f) = names_in k st l f.
Proof.
  induction l as [|(m, g) l IH]; intros j p st f L; cbn [render_body body_toks body_parts names_in] in *; unfold render_first in *; rewrite !zlen_app in L.
  - pose proof (zlen_nonneg (lead j f)). apply markup_sel. lia.
  - pose proof (zlen_nonneg (lead j m)). pose proof (zlen_nonneg (render_markup m)). pose proof (zlen_nonneg (render_gap g)). pose proof (zlen_nonneg (render_body [] l f)).
    match goal with |- context [markup_toks j ?q (depth st) m] => destruct (markup_sel k j q st m ltac:(lia)) as (M1 & M2) end.
    match goal with |- context [body_toks [] ?q ?s l f] => destruct (IH [] q s f ltac:(lia)) as (B1 & B2) end.
    match goal with |- context [gap_toks ?q ?e m g ?x] => assert (G : length (gap_toks q e m g x) = length (gap_parts m g x) /\ sel k (gap_toks q e m g x) (gap_parts m g x) = []) end.
    { destruct g as [x|w r]; cbn [gap_toks gap_parts render_gap] in *; [|split; reflexivity]. destruct (blank x && _); [split; reflexivity|]. rewrite zlen_app in *. change (zlen (lit "<")) with 1 in *. rewrite text_short by lia. split; reflexivity. }
    destruct G as (G1 & G2). split; [rewrite !app_length; lia|]. rewrite sel_app by exact M1. rewrite sel_app by exact G1. rewrite M2, G2, B2. reflexivity.
Qed.
Lemma epilog_type p l : Forall (fun t => t_type t <> 0) (epilog_toks p l).
Proof. revert p. induction l as [|e l IH]; intros p; [constructor|]. cbn [epilog_toks]. apply Forall_app. split; [|apply IH]. unfold epi_toks. cbv zeta. repeat constructor; cbn [t_type]; try discriminate; destruct (p_value e) as [(? & ?)|]; discriminate. Qed.
Lemma start_type p s : Forall (fun t => t_type t <> 0) (start_toks p s).
Proof.
  destruct s as [j|w|d]; [constructor | constructor|]. cbn [start_toks]. unfold decl_toks. cbv zeta. destruct (d_rest d) as [((w, [e|]), [a|])|]; unfold enc_toks, sta_toks; cbv zeta; cbn [app];
    repeat (constructor; cbn [t_type]; try discriminate).
Qed.

Lemma start_len p s : length (start_toks p s) = length (start_parts s).
Proof. destruct s as [j|w|d]; [reflexivity..|]. cbn [start_toks start_parts]. unfold decl_toks. cbv zeta. destruct (d_rest d) as [((w, [e|]), [a|])|]; reflexivity. Qed.
Lemma document_sel k p d : zlen (d_body d) <= max_token -> sel k (tl (tokens p d)) (parts d) = names_of_level k d.
Proof.
  intros L. unfold tokens, parts, names_of_level. cbv zeta. cbn [tl]. rewrite sel_app by apply start_len. rewrite (sel_none k (start_toks p (d_start d))) by apply start_type.
  match goal with |- context [body_toks ?j ?q ?s ?i ?f] => destruct (body_sel k i j q s f L) as (B1 & B2) end.
  rewrite sel_app by exact B1. rewrite B2. rewrite (sel_none k (epilog_toks _ _)) by apply epilog_type. apply app_nil_r.
Qed.
Lemma forall2_len {A B} (P : A -> B -> Prop) l m : Forall2 P l m -> length l = length m.
Proof. induction 1; cbn [length]; congruence. Qed.

(** ** The tokens of a level *)
Lemma level_sel k ts : forall xs i0, length ts = length xs ->
  Forall2 (fun i x => exists t, value_at ts (i - i0) t /\ value_at xs (i - i0) x /\ t_type t = 0) (of_depth k (start_tags i0 ts)) (sel k ts xs).
Proof.
  assert (Z0 : forall A (a : A) l j, j = 0 -> value_at (a :: l) j a) by (intros A a l j ->; exists [], l; split; reflexivity).
  assert (ZS : forall A (a b : A) l j, value_at l (j - 1) b -> value_at (a :: l) j b) by (intros A a b l j (u & v & -> & L); exists (a :: u), v; split; [reflexivity | cbn [length]; lia]).
  induction ts as [|t ts IH]; intros [|x xs] i0 L; try discriminate L; [constructor|]. specialize (IH xs (i0 + 1) ltac:(cbn [length] in L; lia)).
  assert (H : Forall2 (fun i y => exists u, value_at (t :: ts) (i - i0) u /\ value_at (x :: xs) (i - i0) y /\ t_type u = 0) (of_depth k (start_tags (i0 + 1) ts)) (sel k ts xs)).
  { clear - IH ZS. induction IH as [|i y a b (u & U1 & U2 & U3) F IHF]; constructor; [|exact IHF]. exists u. replace (i - (i0 + 1)) with (i - i0 - 1) in * by lia. split; [apply ZS, U1|]. split; [apply ZS, U2 | exact U3]. }
  cbn [start_tags sel]. destruct (t_type t =? 0) eqn:Et; cbn [andb]; [|exact H]. unfold of_depth in *. cbn [filter snd]. destruct (t_depth t =? k); [|exact H]. cbn [map fst app]. constructor; [|exact H].
  exists t. split; [apply Z0; lia|]. split; [apply Z0; lia | lia].
Qed.

(** ** Reading a name *)
Lemma name_read opts doc rest off s d n i t x : zlen (doc ++ rest) < 2^20 -> result opts off (zlen doc - off) d s -> zlen (window doc off) = zlen doc - off ->
  Forall2 (stands_for (doc ++ rest)) (tl (tokens off d)) (parts d) -> over n s (doc ++ rest) ->
  value_at (tl (tokens off d)) (i - 1) t -> value_at (parts d) (i - 1) x -> t_type t = 0 -> i < first_page (zlen (window doc off)) -> ~ In x3a x ->
  toRawStringAtIndex n i = Some (Ok x) /\ toStringAtIndex n i = Some (Ok x).
Proof.
  intros L X WL F (N1 & N2 & N3) V1 V2 Ty I Nc. pose proof (forall2_at _ _ _ _ _ _ F V1 V2) as S. pose proof S as (S0 & _ & S1 & S2 & S3 & _).
  destruct (S3 Ty) as (p & Hx & Cr & _ & Hp & El). rewrite (Hp Nc) in El. change (Z.lor (2 * 0) (zlen x)) with (zlen x) in El.
  destruct (stands_slice _ _ _ S L (zlen_pos _ (proj1 Hx))) as (Sl & _ & Hb). assert (Ft : fits t) by (unfold fits; rewrite El; lia).
  assert (V3 : value_at (tokens off d) i t).
  { unfold tokens in *. cbv zeta in *. cbn [tl] in V1. destruct V1 as (u & v & Eu & Lu). rewrite Eu. exists (Tok 13 0 0 (-1) :: u), v. split; [reflexivity | cbn [length]; lia]. }
  destruct (result_bits _ _ _ _ _ _ _ X V3 ltac:(rewrite <- WL; exact I) Ft) as (Vt & _). rewrite <- N1, Ty, El in Vt.
  rewrite <- Sl, <- N2. apply (C82_tag_name_string n i (t_depth t) (zlen x) (t_off t)); [lia | lia | lia | exact Vt | | exact N3 | rewrite N2, Sl; exact Cr].
  unfold PropertiesNav.inside. rewrite N2. lia.
Qed.

(** A walk over the children of the root stops at one cursor for each of [names], where
    the name is read. *)
Definition names_walked (opts : list popt) (s : pst) (buffer : list byte) (n0 : Z) (names : list (list byte)) : Prop :=
  zlen names <= nth 1 (page_sizes (snd (window_of opts))) 0 ->
  forall o l depth enc ns n, newVtdNav (s_rootIndex s) o l depth enc ns (Some buffer) (s_vtd s) (s_l1 s) (s_l2 s) (s_l3 s) = Ok n -> 2 <= depth -> byteEnc enc = true ->
  exists n1 r kids, visit n (DirFirstChild :: tour true kids) = Some (n1, r :: kids) /\ toElement n1 DirNextSibling = (n1, Ok false) /\
    Forall2 (fun i x => i < first_page n0 -> ~ In x3a x -> toRawStringAtIndex n1 i = Some (Ok x) /\ toStringAtIndex n1 i = Some (Ok x)) kids names.
Lemma names_core opts doc rest off s d : scans opts doc rest off -> shallow_of opts = false -> runParser opts = Parsed s -> zlen (doc ++ rest) < 2^20 ->
  wf d -> shows d (window doc off) rest -> result opts off (zlen doc - off) d s -> names_walked opts s (doc ++ rest) (zlen (window doc off)) (names_of_level 1 d).
Proof.
  intros R Sh E B W Ed X.
  pose proof (zlen_app doc rest) as LA. pose proof (zlen_nonneg rest). assert (L : zlen doc < 2^31) by lia. pose proof (parsed_tree_of _ _ _ _ _ _ R Sh E L W Ed X) as C. pose proof R as (_ & _ & Ho & _).
  destruct (window_length _ _ _ _ _ R Ed) as (_ & WL). pose proof (parts_ok opts doc rest off d R W Ed ltac:(lia)) as F.
  cbv zeta in C. destruct C as (Root & Lt & Bt & (e1 & R1 & P1) & _). set (tags := start_tags 0 (tokens off d)) in *.
  assert (SL : names_of_level 1 d = sel 1 (tl (tokens off d)) (parts d) /\ tags = start_tags 1 (tl (tokens off d))).
  { split; [|reflexivity]. symmetry. apply document_sel. destruct (shows_parts _ _ _ W Ed) as (w & r & _ & _ & Lq & _). unfold d_body, max_token in *. pose proof (zlen_nonneg (render_start (d_start d))). lia. }
  destruct SL as (SL & ST).
  assert (K2 : Forall2 (fun i x => exists t, value_at (tl (tokens off d)) (i - 1) t /\ value_at (parts d) (i - 1) x /\ t_type t = 0) (of_depth 1 tags) (names_of_level 1 d)).
  { rewrite SL, ST. apply level_sel. exact (forall2_len _ _ _ F). }
  intros K o l depth enc ns n N D BE. pose proof (forall2_len _ _ _ K2) as KL.
  assert (T : map entry_token (level 1 0 tags) = of_depth 1 tags) by (apply level_tokens; [intros e He; specialize (Bt e He); lia | lia..]).
  assert (V : views (s_l1 s) (level 1 0 tags)) by (apply (views_of_repr e1); [exact R1 | rewrite level_count; unfold zlen in *; lia | rewrite level_count; pose proof (of_depth_length 1 tags); lia]).
  destruct (nav_start _ _ _ _ _ _ _ _ _ _ _ _ _ N D V) as (n0 & M0 & C0 & A0 & _).
  assert (O0 : over n0 s (doc ++ rest)).
  { clear - N M0 BE D. unfold newVtdNav in N. destruct (depth <? 0) eqn:Eq; [discriminate N|]. cbn [newUniByteBuffer obind] in N. injection N as <-.
    change (toElement ?m DirFirstChild) with (toChildElement m true) in M0. unfold toChildElement, ctxAt in M0. cbn [n_term n_ctx] in M0.
    assert (E0 : znth (repeat (-1) (Z.to_nat depth)) 0 = Some (-1)) by (destruct (Z.to_nat depth) as [|k] eqn:Ek; [lia | reflexivity]). rewrite E0 in M0. cbn [mtry] in M0. change (-1 =? -1) with true in M0. cbv iota in M0.
    rewrite ctxSet_ok in M0 by (cbn [n_ctx]; unfold zlen; rewrite repeat_length; lia). cbn [mtry] in M0. injection M0 as <-. repeat split. exact BE. }
  destruct (visit_children true n0 _ A0) as (n1 & V1 & B1 & _ & S1 & _).
  assert (O1 : over n1 s (doc ++ rest)).
  { destruct O0 as (Q1 & Q2 & Q3). split; [rewrite (base_vtd _ _ B1); exact Q1|]. split; [rewrite (f_equal n_xml B1 : n_xml n1 = n_xml n0); exact Q2 | rewrite (f_equal n_enc B1 : n_enc n1 = n_enc n0); exact Q3]. }
  assert (TL : tour true (of_depth 1 tags) = tour true (level 1 0 tags)).
  { rewrite <- T. destruct (level 1 0 tags) as [|w ws]; [reflexivity|]. cbn [map tour]. f_equal. rewrite map_map. reflexivity. }
  exists n1, (s_rootIndex s), (of_depth 1 tags). rewrite TL. split; [rewrite <- T; exact (visit_cons _ _ _ _ _ _ _ M0 C0 V1)|]. split; [exact S1|].
  assert (NR : forall i x, (exists t, value_at (tl (tokens off d)) (i - 1) t /\ value_at (parts d) (i - 1) x /\ t_type t = 0) -> i < first_page (zlen (window doc off)) -> ~ In x3a x -> toRawStringAtIndex n1 i = Some (Ok x) /\ toStringAtIndex n1 i = Some (Ok x)).
  { intros i x (t & Y1 & Y2 & Y3) Y4 Y5. apply (name_read opts doc rest off s d n1 i t x); assumption. }
  clear - K2 NR. induction K2 as [|i x a b P F IH]; constructor; [exact (NR i x P) | exact IH].
Qed.

(** ** C115: the children of the root, visited in document order, have the names the
    document gives them. *)
Theorem C115_names_partial : forall opts doc rest off s, scans opts doc rest off -> shallow_of opts = false -> runParser opts = Parsed s -> zlen (doc ++ rest) < 2^20 ->
  exists d, wf d /\ shows d (window doc off) rest /\ names_walked opts s (doc ++ rest) (zlen (window doc off)) (names_of_level 1 d).
Proof.
  intros opts doc rest off s R Sh E B. destruct (accepted _ _ _ _ _ R E) as (_ & d & W & Ed & X). exists d. split; [exact W|]. split; [exact Ed|]. exact (names_core _ _ _ _ _ _ R Sh E B W Ed X).
Qed.
Print Assumptions C115_names_partial.

(** ** Concrete documents *)
(** The strings a walk reads at the cursors it reaches *)
Definition names_visited (t : string) (dirs : list Z) : option (list (list byte)) :=
  match nav_over t with
  | Some n =>
      match visit n dirs with
      | Some (n1, l) => Some (flat_map (fun i => match toRawStringAtIndex n1 i with Some (Ok x) => [x] | _ => [] end) l)
      | None => None
      end
  | None => None
  end.
Definition kinds : string := "<list><item k='1'><sub/></item><!-- c --><other/>text<last>x</last></list>".
Definition kinds_doc : document :=
  Doc (SPlain []) [(MStart (lit "list") [] [] false, GText []); (MStart (lit "item") [Attr (lit " ") (lit "k") [] [] x27 (lit "1")] [] false, GText []);
    (MStart (lit "sub") [] [] true, GText []); (MEnd (lit "item") [], GText []); (MComment (lit " c "), GText []); (MStart (lit "other") [] [] true, GText (lit "text"));
    (MStart (lit "last") [] [] false, GText (lit "x")); (MEnd (lit "last") [], GText [])] (MEnd (lit "list") []) [] [].
Example C115_example : render kinds_doc = bytes_of kinds /\ names_of_level 1 kinds_doc = [lit "item"; lit "other"; lit "last"] /\ names_of_level 0 kinds_doc = [lit "list"] /\ names_of_level 2 kinds_doc = [lit "sub"] /\
  names_visited kinds (DirFirstChild :: tour true [2; 6; 8]) = Some [lit "list"; lit "item"; lit "other"; lit "last"].
Proof. repeat split; vm_compute; reflexivity. Qed.
(** The name of a child with a prefix is not what is read. *)
Theorem C115_prefix_refuted : exists t, names_visited t (DirFirstChild :: tour true [2]) = Some [lit "a"; lit "p:ee/>"] /\ bytes_of t = lit "<a><p:ee/></a>".
Proof. exists "<a><p:ee/></a>"%string. split; vm_compute; reflexivity. Qed.
Print Assumptions C115_prefix_refuted.
