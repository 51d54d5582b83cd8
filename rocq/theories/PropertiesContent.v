(** The tokens of an accepted document are the content of its tree. *)
From Verif Require Import Lib XmlChar Buffer BufferProofs SpecBuffer Reader ParserState ParserPrim ParserProc ParserMain SpecParse ParserWp ParserOutcome ParserFrame
  SpecToken TokenProofs SpecNav Nav NavStrProofs PropertiesToken PropertiesNav NavMoveProofs NavCacheProofs SpecChar SpecDoc SpecNested SpecContent SpecWindow SpecLoc SpecPart DocScan DocBase DocLoc DocMain DocShow DocCut NavParsed PropertiesParse PropertiesQuirks PropertiesDoc PartProofs PropertiesPages PropertiesTree PropertiesRead PropertiesNames PropertiesNested.

Fixpoint zip (ts : list tok) (xs : list (list byte)) : list piece :=
  match ts, xs with t :: ts', x :: xs' => (t_type t, t_depth t, x) :: zip ts' xs' | _, _ => [] end.
Lemma zip_app a : forall b c e, length a = length b -> zip (a ++ c) (b ++ e) = zip a b ++ zip c e.
Proof. induction a as [|t a IH]; intros [|x b] c e L; try discriminate L; [reflexivity|]. cbn [app zip]. rewrite IH by (cbn [length] in L; lia). reflexivity. Qed.
Lemma zip_at ts : forall xs i p, length ts = length xs -> value_at (zip ts xs) i p -> exists t x, value_at ts i t /\ value_at xs i x /\ p = (t_type t, t_depth t, x).
Proof.
  induction ts as [|t ts IH]; intros [|x xs] i p L (u & v & E & Lu); try discriminate L; [destruct u; discriminate E|]. cbn [zip] in E. destruct u as [|u0 u]; cbn [app length] in *.
  - injection E as <- _. exists t, x. split; [exists [], ts; split; [reflexivity | exact Lu]|]. split; [exists [], xs; split; [reflexivity | exact Lu] | reflexivity].
  - injection E as _ E. destruct (IH xs (i - 1) p ltac:(lia)) as (t' & x' & (a & b & -> & La) & (a' & b' & -> & La') & Ep); [exists u, v; split; [exact E | lia]|].
    exists t', x'. split; [exists (t :: a), b; split; [reflexivity | cbn [length]; lia]|]. split; [exists (x :: a'), b'; split; [reflexivity | cbn [length]; lia] | exact Ep].
Qed.
Lemma zip_len ts : forall xs, length ts = length xs -> length (zip ts xs) = length ts.
Proof. induction ts as [|t ts IH]; intros [|x xs] L; try discriminate L; [reflexivity|]. cbn [zip length] in *. rewrite IH by lia. reflexivity. Qed.
Lemma attrs_zip d l : forall p, zip (attrs_toks p d l) (flat_map attr_parts l) = flat_map (attr_pieces d) l.
Proof. induction l as [|a l IH]; intros p; [reflexivity|]. cbn [attrs_toks flat_map]. rewrite zip_app by reflexivity. rewrite IH. reflexivity. Qed.
Lemma markup_zip j p d m : zlen (render_markup m) <= max_token -> zip (markup_toks j p d m) (markup_parts m) = markup_pieces d m.
Proof.
  intros L. destruct m as [n atts t e|n w|x|x|n [(b, v)|]|x]; cbn [markup_toks markup_parts render_markup] in *; rewrite ?zlen_app in L; try reflexivity.
  - cbn [zip t_type t_depth markup_pieces]. rewrite attrs_zip. reflexivity.
  - change (zlen (lit "!--")) with 3 in L. pose proof (zlen_nonneg (lit "-->")). rewrite text_short by lia. reflexivity.
  - change (zlen (lit "![CDATA[")) with 8 in L. pose proof (zlen_nonneg (lit "]>")). rewrite text_short by lia. reflexivity.
Qed.
(** Pieces of a sequence of markups *)
Fixpoint seq_pieces (st : list (list byte)) (l : list (markup * gap)) (f : markup) : list piece :=
  match l with
  | [] => markup_pieces (depth st) f
  | (m, g) :: t => markup_pieces (depth st) m ++ text_pieces (depth (after m st)) (is_open m && is_end (next_of t f)) g ++ seq_pieces (after m st) t f
  end.
Lemma body_zip l : forall j p st f, zlen (render_body j l f) <= max_token -> zip (body_toks j p st l f) (body_parts l f) = seq_pieces st l f.
Proof.
  induction l as [|(m, g) l IH]; intros j p st f L; cbn [render_body body_toks body_parts seq_pieces] in *; unfold render_first in *; rewrite !zlen_app in L.
  - pose proof (zlen_nonneg (lead j f)). apply markup_zip. lia.
  - pose proof (zlen_nonneg (lead j m)). pose proof (zlen_nonneg (render_markup m)). pose proof (zlen_nonneg (render_gap g)). pose proof (zlen_nonneg (render_body [] l f)).
    match goal with |- context [markup_toks j ?q (depth st) m] => pose proof (markup_zip j q (depth st) m ltac:(lia)) as M2; destruct (markup_sel 0 j q st m ltac:(lia)) as (M1 & _) end.
    match goal with |- context [gap_toks ?q ?e m g ?x] => assert (G : length (gap_toks q e m g x) = length (gap_parts m g x) /\ zip (gap_toks q e m g x) (gap_parts m g x) = text_pieces e (is_open m && is_end x) g) end.
    { destruct g as [x|w r]; cbn [gap_toks gap_parts text_pieces render_gap] in *; [|split; reflexivity]. destruct (blank x && _); [split; reflexivity|]. rewrite zlen_app in *. change (zlen (lit "<")) with 1 in *. rewrite text_short by lia. split; reflexivity. }
    destruct G as (G1 & G2). rewrite zip_app by exact M1. rewrite zip_app by exact G1. rewrite M2, G2, IH by lia. reflexivity.
Qed.
Lemma epilog_zip l : forall p, zip (epilog_toks p l) (flat_map epi_parts l) = flat_map epi_pieces l.
Proof. induction l as [|e l IH]; intros p; [reflexivity|]. cbn [epilog_toks flat_map]. rewrite zip_app by reflexivity. rewrite IH. f_equal. unfold epi_toks, epi_parts, epi_pieces. destruct (p_value e) as [(b, x)|]; reflexivity. Qed.
Lemma start_zip p s : zip (start_toks p s) (start_parts s) = decl_pieces s enc_part.
Proof. destruct s as [j|w|d]; [reflexivity..|]. cbn [start_toks start_parts decl_pieces]. unfold decl_toks. cbv zeta. destruct (d_rest d) as [((w, [e|]), [a|])|]; reflexivity. Qed.

(** ** Trees *)
Lemma pieces_elem d n atts tail g kids w : tree_pieces d (Elem n atts tail g kids w) =
  (0, d + 1, n) :: flat_map (attr_pieces (d + 1)) atts ++ text_pieces (d + 1) (match kids with [] => true | _ => false end) g ++
  flat_map (fun p => tree_pieces (d + 1) (fst p) ++ text_pieces (d + 1) false (snd p)) kids.
Proof. cbn [tree_pieces]. do 3 f_equal. rewrite flat_map_concat_map. f_equal. apply map_ext. intros (k, g'). reflexivity. Qed.
Lemma next_flat t g l f : leafy (match t with Leaf m => m | _ => MComment [] end) = true -> is_end (next_of (flat t g ++ l) f) = false.
Proof. destruct t as [m|n a ta g0 kids w]; [cbn [flat app next_of]; destruct m as [? ? ? []| | | | |]; intros H; try discriminate H; reflexivity | reflexivity]. Qed.
Lemma leaf_ok j st t : tree_wf j st t -> leafy (match t with Leaf m => m | _ => MComment [] end) = true.
Proof. destruct t; [intros (H & _); exact H | reflexivity]. Qed.
Lemma not_open m : leafy m = true -> is_open m = false.
Proof. destruct m as [? ? ? []| | | | |]; intros H; try discriminate H; reflexivity. Qed.
Lemma flat_pieces t : forall j st g l f, tree_wf j st t ->
  seq_pieces st (flat t g ++ l) f = tree_pieces (depth st) t ++ text_pieces (depth st) false g ++ seq_pieces st l f.
Proof.
  induction t as [m|n atts tail g0 kids w IH] using tree_ind'; intros j st g l f T.
  - destruct T as (Lf & _). cbn [flat app seq_pieces tree_pieces]. rewrite leafy_after, (not_open _ Lf) by exact Lf. reflexivity.
  - apply tree_wf_elem in T. destruct T as (_ & _ & _ & K). rewrite flat_elem, pieces_elem. cbn [app seq_pieces after is_open andb markup_pieces]. rewrite <- app_assoc. cbn [app].
    assert (ED : depth (n :: st) = depth st + 1) by (unfold depth; rewrite zlen_cons; lia). rewrite ED.
    assert (FK : seq_pieces (n :: st) (flats kids ++ (MEnd n w, g) :: l) f = flat_map (fun p => tree_pieces (depth st + 1) (fst p) ++ text_pieces (depth st + 1) false (snd p)) kids ++ text_pieces (depth st) false g ++ seq_pieces st l f).
    { clear - IH K ED. induction kids as [|(q, g') r IHr]; [reflexivity|]. inversion IH as [|? ? I1 I2]; subst. inversion K as [|? ? K1 K2]; subst. cbn [fst snd] in *. unfold flats in *. cbn [map concat flat_map fst snd].
      rewrite <- !app_assoc, (I1 [] _ _ _ _ (proj1 K1)), (IHr I2 K2), ED. reflexivity. }
    rewrite FK. assert (NX : is_end (next_of (flats kids ++ (MEnd n w, g) :: l) f) = match kids with [] => true | _ => false end).
    { destruct kids as [|(q, g') r]; [reflexivity|]. inversion K as [|? ? K1 K2]; subst. unfold flats. cbn [map concat]. rewrite <- app_assoc. apply next_flat. exact (leaf_ok _ _ _ (proj1 K1)). }
    rewrite NX. rewrite <- !app_assoc. reflexivity.
Qed.
Lemma seq_last l f : forall st, seq_pieces st (l ++ [(f, GPseudo [] [])]) (MEnd [] []) = seq_pieces st l f.
Proof.
  induction l as [|(m, g') l IH]; intros st; cbn [app seq_pieces]; [cbn [text_pieces markup_pieces app]; apply app_nil_r|].
  rewrite IH. replace (next_of (l ++ [(f, GPseudo [] [])]) (MEnd [] [])) with (next_of l f) by (destruct l as [|(a, b) l]; reflexivity). reflexivity.
Qed.
Lemma seq_doc x : xwf x -> seq_pieces [] (d_items (to_doc x)) (d_final (to_doc x)) =
  flat_map (fun p => markup_pieces (-1) (fst p) ++ text_pieces (-1) false (snd p)) (x_prolog x) ++ tree_pieces (-1) (x_root x).
Proof.
  intros (_ & (_ & P) & _ & T & _). cbn [to_doc d_items d_final]. rewrite <- seq_last, <- app_assoc.
  assert (E : root_items (x_root x) ++ [(last_of (x_root x), GPseudo [] [])] = flat (x_root x) (GPseudo [] [])) by (destruct (x_root x); reflexivity). rewrite E. clear E.
  assert (N : seq_pieces [] (flat (x_root x) (GPseudo [] [])) (MEnd [] []) = tree_pieces (-1) (x_root x)).
  { rewrite <- (app_nil_r (flat _ _)), (flat_pieces _ _ [] _ _ _ T). cbn [text_pieces seq_pieces markup_pieces app]. apply app_nil_r. }
  clear T. induction (x_prolog x) as [|(m, g) l IH]; [exact N|]. inversion P as [|? ? P1 P2]; subst. cbn [fst snd app seq_pieces flat_map] in *. destruct m; try contradiction; cbn [after is_open andb]; rewrite (IH P2), <- !app_assoc; reflexivity.
Qed.
Lemma doc_zip p x : xwf x -> zlen (d_body (to_doc x)) <= max_token -> zip (tl (tokens p (to_doc x))) (parts (to_doc x)) = pieces_of enc_part x.
Proof.
  intros X L. unfold tokens, parts, pieces_of. cbv zeta. cbn [tl]. rewrite zip_app by apply start_len. rewrite start_zip. f_equal.
  match goal with |- context [body_toks ?j ?q ?s ?i ?f] => destruct (body_sel 0 i j q s f L) as (B1 & _); pose proof (body_zip i j q s f L) as B2 end.
  rewrite zip_app by exact B1. rewrite B2, epilog_zip, seq_doc by exact X. rewrite <- app_assoc. reflexivity.
Qed.

(** ** C119: the content of the tree is read token by token. *)
Definition content_read (s : pst) (buffer : list byte) (n0 : Z) (content : list piece) : Prop :=
  b_size (s_vtd s) = zlen content + 1 /\
  forall n, over n s buffer -> forall i ty d y, value_at content i (ty, d, y) -> i + 1 < first_page n0 -> plain (ty, d, y) ->
    getTokenType n (i + 1) = Ok ty /\ getTokenDepth n (i + 1) = Ok d /\ toRawStringAtIndex n (i + 1) = Some (Ok (seen_as ty y)) /\ toStringAtIndex n (i + 1) = Some (Ok (seen_as ty y)).
Lemma content_core opts doc rest off s x : scans opts doc rest off -> zlen (doc ++ rest) < 2^20 -> xwf x -> shows (to_doc x) (window doc off) rest -> result opts off (zlen doc - off) (to_doc x) s ->
  content_read s (doc ++ rest) (zlen (window doc off)) (pieces_of enc_part x).
Proof.
  intros R B Xw Ed X. pose proof (doc_wf x Xw) as W. pose proof (zlen_app doc rest) as LA. pose proof (zlen_nonneg rest). pose proof R as (_ & _ & Ho & _).
  destruct (window_length _ _ _ _ _ R Ed) as (_ & WL). pose proof (parts_ok opts doc rest off (to_doc x) R W Ed ltac:(lia)) as F. pose proof (forall2_len _ _ _ F) as FL.
  assert (LB : zlen (d_body (to_doc x)) <= max_token).
  { destruct (shows_parts _ _ _ W Ed) as (w & r & _ & _ & Lq & _). unfold d_body, max_token in *. pose proof (zlen_nonneg (render_start (d_start (to_doc x)))). lia. }
  pose proof (doc_zip off x Xw LB) as Z. split.
  - rewrite <- Z. unfold zlen. rewrite (zip_len _ _ FL). destruct X as (_ & _ & X). rewrite (rp_size _ _ _ X), zlen_map. unfold zlen, tokens. cbv zeta. cbn [tl length]. lia.
  - intros n (N1 & N2 & N3) i ty d y V I P. rewrite <- Z in V. destruct (zip_at _ _ _ _ FL V) as (t & y' & V1 & V2 & E). injection E as -> -> <-.
    pose proof (forall2_at _ _ _ _ _ _ F V1 V2) as S. pose proof S as (S0 & _ & S1 & S2 & S3 & S4 & S5).
    assert (V3 : value_at (tokens off (to_doc x)) (i + 1) t).
    { unfold tokens in *. cbv zeta in *. cbn [tl] in V1. destruct V1 as (u & v & Eu & Lu). rewrite Eu. exists (Tok 13 0 0 (-1) :: u), v. split; [reflexivity | cbn [length]; lia]. }
    destruct P as (P0 & P1).
    assert (RB : forall l o, 0 <= l < 2^20 -> t_len t = l -> t_off t = o -> 0 <= o < 2^20 -> longAt (n_vtd n) (i + 1) = Ok (mkToken (t_type t) o l (t_depth t)) /\ i + 1 < b_size (n_vtd n)).
    { intros l o Hl El Eo Bo. subst l o. rewrite N1. apply (result_bits opts off (zlen doc - off) (to_doc x)); [exact X | exact V3 | rewrite <- WL; exact I | unfold fits; lia]. }
    destruct (Z.eq_dec (t_type t) 0) as [T0|T0].
    + destruct (S3 T0) as (p & Hx & Cr & _ & Hp & El). rewrite (Hp (P0 T0)) in El. change (Z.lor (2 * 0) (zlen y)) with (zlen y) in El.
      destruct (stands_slice _ _ _ S B (zlen_pos _ (proj1 Hx))) as (Sl & _ & Hb). destruct (RB (zlen y) (t_off t) ltac:(lia) El eq_refl ltac:(lia)) as (Vt & _).
      destruct (C72_token_offset_exact n (i + 1) _ _ _ _ Vt ltac:(lia) ltac:(lia) ltac:(lia) ltac:(lia)) as (G1 & G2 & _). split; [exact G1|]. split; [exact G2|]. rewrite T0 in Vt.
      rewrite T0. change (seen_as 0 y) with y. rewrite <- Sl, <- N2. apply (C82_tag_name_string n (i + 1) (t_depth t) (zlen y) (t_off t)); [lia | lia | lia | exact Vt | | exact N3 | rewrite N2, Sl; exact Cr]. unfold PropertiesNav.inside. rewrite N2. lia.
    + destruct (Z.eq_dec (t_type t) 2) as [T2|T2]; [|destruct (Z.eq_dec (t_type t) 3) as [T3|T3]].
      3: { rename P1 into Hx. assert (El : t_len t = zlen y) by tauto. destruct (stands_any _ _ _ S) as (Sl & _ & Hb). pose proof (zlen_nonneg y).
        assert (Hk : ~ text_kind (t_type t) \/ 0 < zlen y) by (unfold text_kind; destruct y as [|b y]; [left; tauto | right; rewrite zlen_cons; pose proof (zlen_nonneg y); lia]). destruct (RB (zlen y) (t_off t) ltac:(lia) El eq_refl ltac:(lia)) as (Vt & Vs).
        destruct (C72_token_offset_exact n (i + 1) _ _ _ _ Vt ltac:(lia) ltac:(lia) ltac:(lia) ltac:(lia)) as (G1 & G2 & _). split; [exact G1|]. split; [exact G2|].
        replace (seen_as (t_type t) y) with (map lf y) by (unfold seen_as; replace (t_type t =? 0) with false by lia; replace (t_type t =? 2) with false by lia; replace (t_type t =? 3) with false by lia; reflexivity). rewrite <- Sl, <- N2. apply (C82_shown_string n (i + 1) (t_type t) (t_depth t) (zlen y) (t_off t)); [lia | | lia | lia | exact Hk | lia | exact Vt | exact Vs | | | exact N3].
        - unfold name_kind. lia.
        - unfold PropertiesNav.inside. rewrite N2. lia.
        - rewrite N2. destruct S0 as (_ & _ & [-> |S0]); [left; reflexivity | right; exact S0]. }
      all: assert (Ty : t_type t = 2 \/ t_type t = 3) by tauto; destruct (S4 Ty) as (p & Hx & Cr & Hp & _ & El); destruct (stands_slice _ _ _ S B (zlen_pos _ (proj1 Hx))) as (Sl & _ & Hb);
        destruct (RB (p * 2^11 + zlen y) (t_off t) ltac:(lia) El eq_refl ltac:(lia)) as (Vt & _); destruct (C72_token_offset_exact n (i + 1) _ _ _ _ Vt ltac:(lia) ltac:(lia) ltac:(lia) ltac:(lia)) as (G1 & G2 & _);
        split; [exact G1|]; split; [exact G2|]; rewrite <- name_len_word in Vt by lia;
        replace (seen_as (t_type t) y) with y by (unfold seen_as; destruct Ty as [-> | ->]; reflexivity); rewrite <- Sl, <- N2; apply (C82_attr_name_string n (i + 1) (t_type t) (t_depth t) p (zlen y) (t_off t)); [exact Ty | lia | lia | lia | lia | exact Vt | | exact N3 | rewrite N2, Sl; exact Cr]; unfold PropertiesNav.inside; rewrite N2; lia.
Qed.
Theorem C119_content_partial : forall opts doc rest off s, scans opts doc rest off -> zlen (doc ++ rest) < 2^20 -> runParser opts = Parsed s ->
  exists x, xwf x /\ xshows x (window doc off) rest /\ content_read s (doc ++ rest) (zlen (window doc off)) (pieces_of enc_part x).
Proof.
  intros opts doc rest off s R B E. destruct (accepted _ _ _ _ _ R E) as (_ & d & W & S & X). destruct (wf_tree_doc d W) as (x & Xw & <-). exists x. split; [exact Xw|].
  split; [unfold shows, xshows in *; rewrite doc_render in S by apply Xw; exact S | exact (content_core opts doc rest off s x R B Xw S X)].
Qed.
Print Assumptions C119_content_partial.
(** Conversely, every tree is accepted and read back. *)
Theorem C119_tree_partial : forall opts doc rest off x, scans opts doc rest off -> ns_of opts = false -> zlen (doc ++ rest) < 2^20 -> xwf x -> xshows x (window doc off) rest ->
  exists s, runParser opts = Parsed s /\ content_read s (doc ++ rest) (zlen (window doc off)) (pieces_of enc_part x).
Proof.
  intros opts doc rest off x R N B X S. pose proof (zlen_app doc rest). pose proof (zlen_nonneg rest).
  assert (S' : shows (to_doc x) (window doc off) rest) by (unfold shows, xshows in *; rewrite doc_render by apply X; exact S).
  destruct (scan_ok opts doc rest off (to_doc x) R N ltac:(lia) (doc_wf x X) S') as (s & E & Q). exists s. split; [exact E|]. exact (content_core opts doc rest off s x R B X S' Q).
Qed.
Print Assumptions C119_tree_partial.

(** ** Concrete documents *)
(** The types, depths and strings of all tokens after the first *)
Definition content_seen (t : string) : option (list piece) :=
  match nav_over t with
  | Some n =>
      Some (flat_map (fun k => match getTokenType n (Z.of_nat k + 1), getTokenDepth n (Z.of_nat k + 1), toStringAtIndex n (Z.of_nat k + 1) with
        | Ok ty, Ok d, Some (Ok y) => [(ty, d, y)] | _, _, _ => [] end) (seq 0 (Z.to_nat (b_size (n_vtd n)) - 1)))
  | None => None
  end.
Definition kinds_tree : xdoc :=
  XDoc (SPlain []) [] (Elem (lit "list") [] [] (GText [])
    [(Elem (lit "item") [Attr (lit " ") (lit "k") [] [] x27 (lit "1")] [] (GText []) [(Leaf (MStart (lit "sub") [] [] true), GText [])] [], GText []);
     (Leaf (MComment (lit " c ")), GText []); (Leaf (MStart (lit "other") [] [] true), GText (lit "text")); (Elem (lit "last") [] [] (GText (lit "x")) [] [], GText [])] []) [] [].
Example C119_example : pieces_of enc_part small_tree = [(0, 0, lit "list"); (0, 1, lit "item"); (0, 2, lit "sub"); (0, 1, lit "other")] /\
  content_seen small = Some (pieces_of enc_part small_tree) /\ Forall plain (pieces_of enc_part small_tree).
Proof.
  split; [vm_compute; reflexivity|]. split; [vm_compute; reflexivity|]. vm_compute pieces_of.
  repeat (apply Forall_cons; [split; [intros _ H; repeat (destruct H as [H|H]; [discriminate H|]); exact H | intuition discriminate]|]). apply Forall_nil.
Qed.
Example C119_kinds : render_x kinds_tree = bytes_of kinds /\ content_seen kinds = Some (pieces_of enc_part kinds_tree) /\
  pieces_of enc_part kinds_tree = [(0, 0, lit "list"); (0, 1, lit "item"); (2, 1, lit "k"); (4, 1, lit "1"); (0, 2, lit "sub"); (6, 0, lit " c "); (0, 1, lit "other"); (5, 0, lit "text"); (0, 1, lit "last"); (5, 1, lit "x")].
Proof. repeat split; vm_compute; reflexivity. Qed.
(** Empty attribute values and PIs without a value are read as such. *)
Example C119_empty : content_seen "<a k=''><?p?><b/></a>" = Some [(0, 0, lit "a"); (2, 0, lit "k"); (4, 0, []); (7, 0, lit "p"); (8, 0, []); (0, 1, lit "b")] /\ plain (4, 0, []) /\ plain (8, 0, []).
Proof. split; [vm_compute; reflexivity|]. split; (split; [discriminate | intuition discriminate]). Qed.
(** A name with a prefix is read with bytes that follow it. *)
Theorem C119_prefix_refuted : exists t, content_seen t = Some [(0, 0, lit "a"); (0, 1, lit "p:ee/>")] /\ bytes_of t = lit "<a><p:ee/></a>".
Proof. exists "<a><p:ee/></a>"%string. split; vm_compute; reflexivity. Qed.
Print Assumptions C119_prefix_refuted.
