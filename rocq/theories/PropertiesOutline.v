(** Two documents read alike exactly when they have the same outline, up to CR and LF. *)
From Verif Require Import Lib XmlChar Buffer BufferProofs SpecBuffer Reader ParserState ParserPrim ParserProc ParserMain SpecParse ParserWp ParserOutcome ParserFrame
  SpecToken TokenProofs SpecNav Nav NavStrProofs PropertiesToken PropertiesNav NavMoveProofs NavCacheProofs SpecChar SpecDoc SpecNested SpecContent SpecOutline SpecWindow SpecLoc SpecPart DocScan DocBase DocLoc DocMain DocShow DocCut NavParsed PropertiesParse PropertiesQuirks PropertiesDoc PartProofs PropertiesPages PropertiesTree PropertiesRead PropertiesNames PropertiesNested PropertiesContent.

(** ** The pieces of an outline *)
Fixpoint flat (d : Z) (i : item) : list piece :=
  match i with
  | IDecl n v => [(9, d, n); (10, d, v)]
  | IPi n v => [(7, d, n); (8, d, v)]
  | IComment x => [(6, d, x)]
  | ICdata x => [(11, d, x)]
  | IDoctype x => [(12, d, x)]
  | IText x => [(5, d, x)]
  | IAttr n v => [((if ns_name n then 3 else 2), d, n); (4, d, v)]
  | IElem n l => (0, d + 1, n) :: concat (map (flat (d + 1)) l)
  end.
Definition flats (d : Z) (l : list item) : list piece := concat (map (flat d) l).
Lemma flats_app d a b : flats d (a ++ b) = flats d a ++ flats d b.
Proof. unfold flats. rewrite map_app, concat_app. reflexivity. Qed.
Lemma flats_cons d i l : flats d (i :: l) = flat d i ++ flats d l.
Proof. reflexivity. Qed.
Lemma flats_attrs d l : flats d (map attr_item l) = flat_map (attr_pieces d) l.
Proof. induction l as [|a l IH]; [reflexivity|]. cbn [map]. rewrite flats_cons, IH. reflexivity. Qed.
Lemma flats_markup d m : flats d (markup_items m) = markup_pieces d m.
Proof.
  destruct m as [n atts tail e|n w|x|x|n v|x]; try reflexivity. cbn [markup_items]. rewrite flats_cons. cbn [flat markup_pieces]. fold (flats (d + 1) (map attr_item atts)). rewrite flats_attrs. apply app_nil_r.
Qed.
Lemma flats_text d all g : flats d (text_items all g) = text_pieces d all g.
Proof. destruct g as [x|w r]; [|reflexivity]. cbn [text_items text_pieces]. destruct (blank x && negb all); reflexivity. Qed.
Lemma flats_tree t : forall d, flats d (tree_items t) = tree_pieces d t.
Proof.
  induction t as [m|n atts tail g kids w IH] using tree_ind'; intros d; [apply flats_markup|].
  cbn [tree_items tree_pieces]. rewrite flats_cons. cbn [flat]. change (concat (map (flat (d + 1)) ?l)) with (flats (d + 1) l). change (flats d []) with (@nil piece). rewrite app_nil_r, !flats_app, flats_attrs, flats_text.
  f_equal. f_equal. f_equal. induction IH as [|[k g'] r Hk Hr IHr]; [reflexivity|]. cbn [map concat]. rewrite !flats_app, Hk, flats_text, IHr. reflexivity.
Qed.
Lemma flats_outline e x : flats (-1) (outline e x) = pieces_of e x.
Proof.
  unfold outline, pieces_of. rewrite !flats_app, flats_tree. f_equal; [|f_equal; [|f_equal]].
  - destruct (x_start x) as [j|j|d]; try reflexivity. cbn [decl_items decl_pieces]. destruct (d_rest d) as [[[? [en|]] [sa|]]|]; reflexivity.
  - induction (x_prolog x) as [|[m g] r IH]; [reflexivity|]. cbn [flat_map fst snd]. rewrite !flats_app, flats_markup, flats_text, IH. reflexivity.
  - induction (x_epis x) as [|p r IH]; [reflexivity|]. cbn [map flat_map]. rewrite flats_cons, IH. reflexivity.
Qed.

(** ** The pieces determine the outline *)
Definition kind (p : piece) : Z := fst (fst p).
Definition level (p : piece) : Z := snd (fst p).
(** What follows the content of an element of depth [d] *)
Definition closing (d : Z) (r : list piece) : Prop :=
  match r with [] => True | p :: _ => (kind p = 0 -> level p <= d) /\ (kind p <> 0 -> level p < d) end.
Fixpoint weight (i : item) : nat := match i with IElem _ l => S (list_sum (map weight l)) | _ => 1%nat end.
Lemma flat_head d i : exists p r, flat d i = p :: r /\ (kind p = 0 /\ level p = d + 1 \/ kind p <> 0 /\ level p = d).
Proof.
  destruct i as [n v|n v|x|x|x|x|n v|n l]; cbn [flat]; eexists _, _; (split; [reflexivity|]); unfold kind, level; cbn [fst snd]; try (right; split; [discriminate | reflexivity]); [|left; split; reflexivity].
  right. split; [destruct (ns_name n); discriminate | reflexivity].
Qed.
Lemma closing_flats d l r : closing d r -> closing (d + 1) (flats d l ++ r).
Proof.
  intros C. destruct l as [|i l].
  - destruct r as [|p r]; [exact I|]. destruct C as (C1 & C2). split; intros H; [specialize (C1 H) | specialize (C2 H)]; lia.
  - rewrite flats_cons. destruct (flat_head d i) as (p & q & -> & H). cbn [app closing]. lia.
Qed.
Lemma flats_open d i l r : ~ closing d (flats d (i :: l) ++ r).
Proof. rewrite flats_cons. destruct (flat_head d i) as (p & q & -> & H). cbn [app closing]. lia. Qed.
Lemma flats_inj k : forall d l1 l2 r1 r2, (list_sum (map weight l1) <= k)%nat -> closing d r1 -> closing d r2 ->
  flats d l1 ++ r1 = flats d l2 ++ r2 -> l1 = l2 /\ r1 = r2.
Proof.
  induction k as [|k IH]; intros d l1 l2 r1 r2 W C1 C2 E.
  - destruct l1 as [|[| | | | | | |] l1]; cbn in W; try lia. destruct l2 as [|i l2]; [split; [reflexivity | exact E]|]. exfalso. apply (flats_open d i l2 r2). rewrite <- E. exact C1.
  - destruct l1 as [|i l1].
    { destruct l2 as [|i l2]; [split; [reflexivity | exact E]|]. exfalso. apply (flats_open d i l2 r2). rewrite <- E. exact C1. }
    destruct l2 as [|j l2]. { exfalso. apply (flats_open d i l1 r1). rewrite E. exact C2. }
    rewrite !flats_cons, <- !app_assoc in E. cbn [map] in W. change (list_sum (?a :: ?l)) with (a + list_sum l)%nat in W.
    assert (Tail : forall a b, (list_sum (map weight a) <= k)%nat -> flats d a ++ r1 = flats d b ++ r2 -> a = b /\ r1 = r2) by (intros a b Wa Ea; exact (IH d a b r1 r2 Wa C1 C2 Ea)).
    destruct i as [n v|n v|x|x|x|x|n v|n l]; destruct j as [n' v'|n' v'|x'|x'|x'|x'|n' v'|n' l']; cbn [flat app weight] in E, W;
      repeat match type of E with context [ns_name ?a] => destruct (ns_name a) end; try discriminate E;
      try (injection E as -> -> E || injection E as -> E; destruct (Tail l1 l2 ltac:(lia) E) as (-> & ->); split; reflexivity).
    injection E as -> E. change (concat (map (flat (d + 1)) ?l)) with (flats (d + 1) l) in E.
    destruct (IH (d + 1) l l' _ _ ltac:(lia) (closing_flats d l1 r1 C1) (closing_flats d l2 r2 C2) E) as (-> & E').
    destruct (Tail l1 l2 ltac:(lia) E') as (-> & ->). split; reflexivity.
Qed.
Definition seen (p : piece) : piece := match p with (t, d, y) => (t, d, seen_as t y) end.
Lemma flats_lf k : forall d l, (list_sum (map weight l) <= k)%nat -> flats d (map with_lf l) = map seen (flats d l).
Proof.
  induction k as [|k IH]; intros d l W.
  - destruct l as [|[| | | | | | |] l]; cbn in W; try lia. reflexivity.
  - destruct l as [|i l]; [reflexivity|]. cbn [map] in *. change (list_sum (?a :: ?l)) with (a + list_sum l)%nat in W. rewrite !flats_cons, map_app.
    assert (1 <= weight i)%nat by (destruct i; cbn [weight]; lia). rewrite (IH d l ltac:(lia)). f_equal.
    destruct i as [n v|n v|x|x|x|x|n v|n l']; cbn [with_lf flat]; try reflexivity; [cbn [map seen]; destruct (ns_name n); reflexivity|].
    change (concat (map (flat (d + 1)) ?l)) with (flats (d + 1) l). rewrite (IH (d + 1) l') by (cbn [weight] in W; lia). reflexivity.
Qed.
Lemma said_pieces e x : flats (-1) (said e x) = map seen (pieces_of e x).
Proof. unfold said. rewrite (flats_lf _ (-1) _ (le_n _)), flats_outline. reflexivity. Qed.
Lemma pieces_inj e x1 x2 : map seen (pieces_of e x1) = map seen (pieces_of e x2) -> said e x1 = said e x2.
Proof.
  rewrite <- !said_pieces. intros E. apply (flats_inj (list_sum (map weight (said e x1))) (-1) _ _ [] []); [lia | exact I | exact I|]. rewrite !app_nil_r. exact E.
Qed.

(** ** C127 *)
Definition read_alike (n1 n2 : nav) : Prop :=
  getVtdBufferSize n1 = getVtdBufferSize n2 /\
  forall i, 0 < i < getVtdBufferSize n1 ->
    getTokenType n1 i = getTokenType n2 i /\ getTokenDepth n1 i = getTokenDepth n2 i /\ toStringAtIndex n1 i = toStringAtIndex n2 i.
(** [n] reads the document [x], which the parser was given in a window of a buffer. *)
Definition reads_doc (n : nav) (x : xdoc) : Prop :=
  exists opts doc rest off s, scans opts doc rest off /\ ns_of opts = false /\ zlen (doc ++ rest) < 2^20 /\ xwf x /\ xshows x (window doc off) rest /\
    runParser opts = Parsed s /\ over n s (doc ++ rest) /\ getVtdBufferSize n <= first_page (zlen (window doc off)) /\ Forall plain (pieces_of enc_part x).
Lemma value_at_cases {V} (l : list V) i : 0 <= i < zlen l -> exists v, value_at l i v.
Proof.
  intros H. destruct (nth_error l (Z.to_nat i)) as [v|] eqn:E; [|apply nth_error_None in E; unfold zlen in H; lia].
  exists v. destruct (nth_error_split l _ E) as (a & c & El & La). exists a, c. split; [exact El | lia].
Qed.
Lemma same_values {V} (a : list V) : forall b, zlen a = zlen b -> (forall i v w, value_at a i v -> value_at b i w -> v = w) -> a = b.
Proof.
  induction a as [|x a IH]; intros [|y b] L H; [reflexivity | rewrite zlen_cons in L; pose proof (zlen_nonneg b); cbn in L; lia | rewrite zlen_cons in L; pose proof (zlen_nonneg a); cbn in L; lia|].
  rewrite !zlen_cons in L. f_equal.
  - apply (H 0); [exists [], a | exists [], b]; split; reflexivity.
  - apply IH; [lia|]. intros i v w (p & q & -> & Lp) (p' & q' & -> & Lp'). apply (H (i + 1)); [exists (x :: p), q | exists (y :: p'), q']; split; try reflexivity; cbn [length]; lia.
Qed.
Lemma map_at {A B} (f : A -> B) l : forall i w, value_at (map f l) i w -> exists v, value_at l i v /\ w = f v.
Proof.
  induction l as [|x l IH]; intros i w (a & c & E & La); [destruct a; discriminate E|]. destruct a as [|a0 a]; cbn [map app length] in *.
  - injection E as <- _. exists x. split; [exists [], l; split; [reflexivity | exact La] | reflexivity].
  - injection E as _ E. destruct (IH (i - 1) w) as (v & (p & q & -> & Lp) & ->); [exists a, c; split; [exact E | lia]|]. exists v. split; [exists (x :: p), q; split; [reflexivity | cbn [length]; lia] | reflexivity].
Qed.
Lemma reads_pieces n x : reads_doc n x -> getVtdBufferSize n = zlen (map seen (pieces_of enc_part x)) + 1 /\
  forall i ty d y, value_at (map seen (pieces_of enc_part x)) i (ty, d, y) -> getTokenType n (i + 1) = Ok ty /\ getTokenDepth n (i + 1) = Ok d /\ toStringAtIndex n (i + 1) = Some (Ok y).
Proof.
  intros (opts & doc & rest & off & s & R & N & B & Xw & Xs & E & O & P & Pl). destruct (C119_tree_partial opts doc rest off x R N B Xw Xs) as (s' & E' & C).
  assert (s' = s) as -> by congruence. destruct C as (C1 & C2). pose proof O as (O1 & _ & _). assert (Sz : getVtdBufferSize n = zlen (pieces_of enc_part x) + 1) by (unfold getVtdBufferSize; rewrite O1; exact C1).
  rewrite zlen_map. split; [exact Sz|]. intros i ty d y' V'. destruct (map_at _ _ _ _ V') as ([[ty0 d0] y] & V & Ey). injection Ey as -> -> ->. assert (L : i + 1 < first_page (zlen (window doc off))).
  { destruct V as (a & c & El & La). rewrite El in Sz. rewrite zlen_app, zlen_cons in Sz. pose proof (zlen_nonneg c). unfold zlen in Sz at 1. lia. }
  assert (Py : plain (ty0, d0, y)). { apply (proj1 (Forall_forall _ _) Pl). destruct V as (a & c & El & _). rewrite El. apply in_elt. }
  destruct (C2 n O i _ _ y V L Py) as (T & D & _ & S). auto.
Qed.
Theorem C127_alike_partial : forall n1 x1 n2 x2, reads_doc n1 x1 -> reads_doc n2 x2 ->
  (read_alike n1 n2 <-> said enc_part x1 = said enc_part x2).
Proof.
  intros n1 x1 n2 x2 R1 R2. destruct (reads_pieces n1 x1 R1) as (S1 & P1). destruct (reads_pieces n2 x2 R2) as (S2 & P2). split.
  - intros (L & H). apply pieces_inj. apply same_values; [lia|]. intros i [[t1 d1] y1] [[t2 d2] y2] V1 V2.
    destruct (P1 i t1 d1 y1 V1) as (A1 & A2 & A3). destruct (P2 i t2 d2 y2 V2) as (B1 & B2 & B3).
    assert (I : 0 < i + 1 < getVtdBufferSize n1).
    { destruct V1 as (a & c & El & La). rewrite S1, El, zlen_app, zlen_cons. pose proof (zlen_nonneg c). unfold zlen at 1. lia. }
    destruct (H (i + 1) I) as (H1 & H2 & H3). congruence.
  - intros E. assert (Ep : map seen (pieces_of enc_part x1) = map seen (pieces_of enc_part x2)) by (rewrite <- !said_pieces, E; reflexivity). rewrite <- Ep in *. split; [lia|]. intros i Hi.
    destruct (value_at_cases (map seen (pieces_of enc_part x1)) (i - 1) ltac:(lia)) as ([[t d] y] & V). destruct (P1 _ _ _ _ V) as (A1 & A2 & A3). destruct (P2 _ _ _ _ V) as (B1 & B2 & B3).
    replace (i - 1 + 1) with i in * by lia. rewrite A1, A2, A3, B1, B2, B3. auto.
Qed.
Print Assumptions C127_alike_partial.
(** In particular a text has one outline, whichever way it is derived from the grammar. *)
Corollary C127_one_outline_partial : forall n x1 x2, reads_doc n x1 -> reads_doc n x2 -> said enc_part x1 = said enc_part x2.
Proof. intros n x1 x2 R1 R2. apply (C127_alike_partial n x1 n x2 R1 R2). split; [reflexivity|]. auto. Qed.
Print Assumptions C127_one_outline_partial.

(** ** Concrete documents *)
Definition view (doc : list byte) (s : pst) : nav := mkNav [-1] 0 FormatUtf8 false false 0 doc (s_vtd s) (s_l1 s) (s_l2 s) (s_l3 s) 0 0 0 0 0 0 0.
Definition spaced_tree : xdoc :=
  XDoc (SPlain []) [] (Elem (lit "list") [] [] (GText [])
    [(Elem (lit "item") [] [] (GText []) [(Leaf (MStart (lit "sub") [] [] true), GText [])] (lit "  "), GText []); (Leaf (MStart (lit "other") [] [] true), GText [])] (lit " ")) [] [].
Definition spaced : string := "<list><item><sub/></item  ><other/></list >".
Lemma spaced_wf : xwf spaced_tree.
Proof.
  split; [exists x6c, (tl (render_xbody spaced_tree)); split; [vm_compute; reflexivity | discriminate]|]. split; [split; [exact I | constructor]|]. split; [exact I|]. split; [|reflexivity].
  unfold spaced_tree, root_junk. cbn [x_root x_prolog x_start junk_of]. apply tree_wf_elem. split; [apply tag_wf; reflexivity|]. split; [apply no_gap|]. split; [reflexivity|].
  constructor; [split; [|apply no_gap] | constructor; [split; [|apply no_gap] | constructor]]; cbn [fst snd].
  - apply tree_wf_elem. split; [apply tag_wf; reflexivity|]. split; [apply no_gap|]. split; [reflexivity|]. constructor; [|constructor]. split; [split; [reflexivity | apply tag_wf; reflexivity] | apply no_gap].
  - split; [reflexivity | apply tag_wf; reflexivity].
Qed.
Lemma reads_text t x : bytes_of t <> [] -> zlen (bytes_of t) < 2^20 -> xwf x -> render_x x = bytes_of t -> Forall plain (pieces_of enc_part x) -> zlen (pieces_of enc_part x) < 64 ->
  exists s, runParser [OXmlDoc (Some (bytes_of t))] = Parsed s /\ reads_doc (view (bytes_of t) s) x.
Proof.
  intros NE L Xw Er Pl Lp. set (w := bytes_of t) in *. pose proof (reads_scans _ _ _ (reads_all_doc w NE ltac:(lia))) as R.
  assert (Xs : xshows x (window w 0) []) by (left; symmetry; exact Er).
  destruct (C119_tree_partial _ w [] 0 x R eq_refl ltac:(rewrite app_nil_r; lia) Xw Xs) as (s & E & C1 & _). exists s. split; [exact E|].
  exists [OXmlDoc (Some w)], w, [], 0, s. split; [exact R|]. split; [reflexivity|]. split; [rewrite app_nil_r; lia|]. split; [exact Xw|]. split; [exact Xs|]. split; [exact E|].
  split; [split; [reflexivity|]; split; [symmetry; apply app_nil_r | reflexivity]|]. split; [|exact Pl].
  unfold getVtdBufferSize, view. cbn [n_vtd]. rewrite C1. unfold first_page. repeat (destruct (_ <=? _); [lia|]). lia.
Qed.
Example C127_example : exists s1 s2, runParser [OXmlDoc (Some (bytes_of small))] = Parsed s1 /\ runParser [OXmlDoc (Some (bytes_of spaced))] = Parsed s2 /\
  reads_doc (view (bytes_of small) s1) small_tree /\ reads_doc (view (bytes_of spaced) s2) spaced_tree /\ read_alike (view (bytes_of small) s1) (view (bytes_of spaced) s2) /\
  outline enc_part small_tree = [IElem (lit "list") [IElem (lit "item") [IElem (lit "sub") []]; IElem (lit "other") []]].
Proof.
  destruct C117_example as (W1 & E1 & _). destruct C119_example as (_ & _ & P1).
  destruct (reads_text small small_tree ltac:(discriminate) ltac:(reflexivity) W1 E1 P1 ltac:(reflexivity)) as (s1 & Q1 & R1).
  destruct (reads_text spaced spaced_tree ltac:(discriminate) ltac:(reflexivity) spaced_wf ltac:(reflexivity) P1 ltac:(reflexivity)) as (s2 & Q2 & R2).
  exists s1, s2. split; [exact Q1|]. split; [exact Q2|]. split; [exact R1|]. split; [exact R2|]. split; [|reflexivity]. apply (C127_alike_partial _ _ _ _ R1 R2). reflexivity.
Qed.
(** With a prefix the bytes after the name, which are layout, are read too. *)
Definition prefixed (tail : list byte) : xdoc := XDoc (SPlain []) [] (Elem (lit "a") [] [] (GText []) [(Leaf (MStart (lit "p:ee") [] tail true), GText [])] []) [] [].
Theorem C127_prefix_refuted : exists t1 t2 w1 w2, render_x (prefixed w1) = bytes_of t1 /\ render_x (prefixed w2) = bytes_of t2 /\
  outline enc_part (prefixed w1) = outline enc_part (prefixed w2) /\
  content_seen t1 = Some [(0, 0, lit "a"); (0, 1, lit "p:ee/>")] /\ content_seen t2 = Some [(0, 0, lit "a"); (0, 1, lit "p:ee /")].
Proof. exists "<a><p:ee/></a>"%string, "<a><p:ee /></a>"%string, [], (lit " "). repeat split; vm_compute; reflexivity. Qed.
Print Assumptions C127_prefix_refuted.
(** Different outlines: the comment belongs to another element. *)
Example C127_apart : content_seen "<a><b><!--c--></b></a>" = Some [(0, 0, lit "a"); (0, 1, lit "b"); (6, 1, lit "c")] /\
  content_seen "<a><b/><!--c--></a>" = Some [(0, 0, lit "a"); (0, 1, lit "b"); (6, 0, lit "c")].
Proof. split; vm_compute; reflexivity. Qed.
