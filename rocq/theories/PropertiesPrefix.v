(** What is read as the name of an element, with or without a prefix. *)
From Verif Require Import Lib XmlChar Buffer BufferProofs SpecBuffer Reader ParserState ParserPrim ParserProc ParserMain SpecParse ParserWp ParserOutcome ParserFrame
  SpecToken TokenProofs SpecNav Nav NavStrProofs PropertiesToken PropertiesNav NavMoveProofs NavCacheProofs SpecChar SpecDoc SpecWindow SpecLoc SpecPart DocScan DocBase DocLoc DocMain DocShow DocCut NavParsed PropertiesParse PropertiesQuirks PropertiesDoc PartProofs PropertiesPages PropertiesTree PropertiesRead PropertiesNames.

(** ** The length field of a start tag below the root *)
Definition tag_len (t : tok) (x : list byte) : Prop :=
  t_type t = 0 -> 1 <= t_depth t -> t_len t = Z.lor (2 * prefix_from 1 x) (zlen x) /\ name_fits 1 x.
Lemma tag_len_other ts : forall xs, length ts = length xs -> Forall (fun t => t_type t <> 0) ts -> Forall2 tag_len ts xs.
Proof. induction ts as [|t ts IH]; intros [|x xs] L F; try discriminate L; [constructor|]. inversion F; subst. constructor; [intros ?; contradiction|]. apply IH; [cbn [length] in L; lia | assumption]. Qed.
Lemma markup_tag j p st m : j = [] \/ st = [] -> wf_markup j st m -> zlen (render_markup m) <= max_token -> Forall2 tag_len (markup_toks j p (depth st) m) (markup_parts m).
Proof.
  intros J W L. pose proof (proj1 (markup_sel 0 j p st m L)) as ML. destruct m as [n atts t e|n w|x|x|n [(b, v)|]|x]; cbn [markup_toks markup_parts render_markup] in *; rewrite ?zlen_app in L;
    try (apply tag_len_other; [exact ML | repeat constructor; discriminate]).
  - constructor; [|apply tag_len_other; [apply attrs_len | apply attrs_type]]. intros _. cbn [t_depth t_len]. intros D.
    destruct J as [-> | ->]; [|unfold depth, zlen in D; cbn in D; lia]. destruct W as (_ & W & _). split; [reflexivity | exact W].
  - change (zlen (lit "!--")) with 3 in L. pose proof (zlen_nonneg (lit "-->")). rewrite text_short by lia. apply tag_len_other; [reflexivity | repeat constructor; discriminate].
  - change (zlen (lit "![CDATA[")) with 8 in L. pose proof (zlen_nonneg (lit "]>")). rewrite text_short by lia. apply tag_len_other; [reflexivity | repeat constructor; discriminate].
Qed.
Lemma body_tag l : forall j p st f, j = [] \/ st = [] -> wf_body j st l f -> zlen (render_body j l f) <= max_token -> Forall2 tag_len (body_toks j p st l f) (body_parts l f).
Proof.
  induction l as [|(m, g) l IH]; intros j p st f J W L; cbn [render_body body_toks body_parts wf_body] in *; unfold render_first in *; rewrite !zlen_app in L.
  - pose proof (zlen_nonneg (lead j f)). apply markup_tag; [exact J | apply W | lia].
  - pose proof (zlen_nonneg (lead j m)). pose proof (zlen_nonneg (render_markup m)). pose proof (zlen_nonneg (render_gap g)). pose proof (zlen_nonneg (render_body [] l f)).
    destruct W as (W1 & _ & _ & W2). apply Forall2_app; [apply markup_tag; [exact J | exact W1 | lia]|]. apply Forall2_app; [|apply IH; [left; reflexivity | exact W2 | lia]].
    destruct g as [x|w r]; cbn [gap_toks gap_parts render_gap] in *; [|constructor]. destruct (blank x && _); [constructor|]. rewrite zlen_app in *. change (zlen (lit "<")) with 1 in *. rewrite text_short by lia. apply tag_len_other; [reflexivity | repeat constructor; discriminate].
Qed.
Lemma document_tag p d : wf d -> zlen (d_body d) <= max_token -> length (tl (tokens p d)) = length (parts d) -> Forall2 tag_len (tl (tokens p d)) (parts d).
Proof.
  intros (_ & W & _) L. unfold tokens, parts. cbv zeta. cbn [tl]. match goal with |- context [body_toks ?j ?q ?s ?i ?f] => destruct (body_sel 0 i j q s f L) as (B1 & _) end. rewrite !app_length, start_len, B1. intros LL.
  apply Forall2_app; [apply tag_len_other; [apply start_len | apply start_type]|]. apply Forall2_app; [apply body_tag; [right; reflexivity | exact W | exact L]|]. apply tag_len_other; [lia | apply epilog_type].
Qed.
Lemma level_tags k ts : forall i0, Forall (fun i => exists t, value_at ts (i - i0) t /\ t_type t = 0 /\ t_depth t = k) (of_depth k (start_tags i0 ts)).
Proof.
  assert (ZS : forall A (a b : A) l j, value_at l (j - 1) b -> value_at (a :: l) j b) by (intros A a b l j (u & v & -> & L); exists (a :: u), v; split; [reflexivity | cbn [length]; lia]).
  induction ts as [|t ts IH]; intros i0; [constructor|]. specialize (IH (i0 + 1)).
  assert (H : Forall (fun i => exists u, value_at (t :: ts) (i - i0) u /\ t_type u = 0 /\ t_depth u = k) (of_depth k (start_tags (i0 + 1) ts))).
  { revert IH. apply Forall_impl. intros i (u & U1 & U2). exists u. replace (i - (i0 + 1)) with (i - i0 - 1) in * by lia. split; [apply ZS, U1 | exact U2]. }
  cbn [start_tags]. destruct (t_type t =? 0) eqn:Et; [|exact H]. unfold of_depth in *. cbn [filter snd]. destruct (t_depth t =? k) eqn:Ek; [|exact H]. cbn [map fst]. constructor; [|exact H].
  exists t. split; [exists [], ts; split; [reflexivity | cbn [length]; lia]|]. lia.
Qed.

Lemma value_at_fun {A} (l : list A) i a b : value_at l i a -> value_at l i b -> a = b.
Proof. intros H H2. pose proof H as (u & v & -> & L). destruct H2 as (u' & v' & E & L'). assert (Lu : length u = length u') by lia. clear - E Lu. revert u' Lu E. induction u as [|x u IH]; intros [|y u'] Lu E; try discriminate Lu; injection E; [congruence|]. intros E2 _. apply (IH u'); [cbn [length] in Lu; lia | exact E2]. Qed.

(** ** C116: the length reported for an element below the root is the bitwise or of
    twice the length of the prefix and the length of the name; as many bytes from
    the beginning of the name on are returned as its name. *)
Definition read_as (n : nav) (buffer : list byte) (i : Z) (x : list byte) : Prop :=
  exists o, let len := Z.lor (2 * prefix_from 1 x) (zlen x) in
    0 <= o /\ slice buffer o (zlen x) = x /\ getTokenOffset n i = Ok o /\ getTokenLength n i = Ok len /\
    (o + len <= zlen buffer -> ~ In x0d (slice buffer o len) ->
     toRawStringAtIndex n i = Some (Ok (slice buffer o len)) /\ toStringAtIndex n i = Some (Ok (slice buffer o len)) /\
     (toRawStringAtIndex n i = Some (Ok x) <-> len = zlen x)).
Theorem C116_names_exact : forall opts doc rest off s, scans opts doc rest off -> runParser opts = Parsed s -> zlen (doc ++ rest) < 2^20 ->
  exists d, wf d /\ shows d (window doc off) rest /\ exports s (map word (tokens off d)) /\
    forall n k, over n s (doc ++ rest) -> 1 <= k ->
    Forall2 (fun i x => i < first_page (zlen (window doc off)) -> read_as n (doc ++ rest) i x) (of_depth k (start_tags 0 (tokens off d))) (names_of_level k d).
Proof.
  intros opts doc rest off s R E B. destruct (accepted _ _ _ _ _ R E) as (L & d & W & Ed & X). exists d. split; [exact W|]. split; [exact Ed|]. split; [apply X|].
  pose proof (zlen_app doc rest) as LA. pose proof (zlen_nonneg rest). pose proof R as (_ & _ & Ho & _).
  destruct (window_length _ _ _ _ _ R Ed) as (_ & WL). pose proof (parts_ok opts doc rest off d R W Ed ltac:(lia)) as F.
  assert (LB : zlen (d_body d) <= max_token).
  { destruct (shows_parts _ _ _ W Ed) as (w & r & _ & _ & Lq & _). unfold d_body, max_token in *. pose proof (zlen_nonneg (render_start (d_start d))). lia. }
  pose proof (document_tag off d W LB (forall2_len _ _ _ F)) as FT.
  intros n k (N1 & N2 & N3) K. rewrite <- (document_sel k off d LB). change (start_tags 0 (tokens off d)) with (start_tags 1 (tl (tokens off d))).
  pose proof (level_sel k (tl (tokens off d)) (parts d) 1 (forall2_len _ _ _ F)) as S. pose proof (level_tags k (tl (tokens off d)) 1) as G.
  induction S as [|i x a b (t & V1 & V2 & Ty) S IH]; [constructor|]. inversion G as [|? ? G1 G2]; subst. constructor; [|exact (IH G2)]. clear IH G G2 S. intros I.
  destruct G1 as (t' & V1' & _ & Dp). assert (t' = t) as -> by (apply (value_at_fun _ _ _ _ V1' V1)).
  pose proof (forall2_at _ _ _ _ _ _ F V1 V2) as S. pose proof S as (S0 & Sx & S1 & S2 & S3 & _). destruct (S3 Ty) as (_ & Hx & _).
  destruct (forall2_at _ _ _ _ _ _ FT V1 V2 Ty ltac:(lia)) as (El & Fi & Fp). pose proof (prefix_nonneg 1 x ltac:(lia)) as Pn. unfold max_name, max_prefix in *.
  destruct (stands_slice _ _ _ S B (zlen_pos _ (proj1 Hx))) as (Sl & _ & Hb).
  set (p := prefix_from 1 x) in *. assert (LB2 : 0 <= Z.lor (2 * p) (zlen x) < 2^11) by (apply lor_bound; lia). assert (Ft : fits t) by (unfold fits; rewrite El; lia).
  assert (V3 : value_at (tokens off d) i t).
  { unfold tokens in *. cbv zeta in *. cbn [tl] in V1. destruct V1 as (u & v & Eu & Lu). rewrite Eu. exists (Tok 13 0 0 (-1) :: u), v. split; [reflexivity | cbn [length]; lia]. }
  destruct (result_bits _ _ _ _ _ _ _ X V3 ltac:(rewrite <- WL; exact I) Ft) as (Vt & _). rewrite <- N1, Ty, El in Vt.
  assert (Vt' : longAt (n_vtd n) i = Ok (mkToken TokStartingTag (t_off t) (Z.lor (shl64 p 1) (zlen x)) (t_depth t))) by (rewrite Vt, shl64_mul by lia; do 3 f_equal; lia).
  destruct (C73_start_tag_length_exact n i (t_depth t) p (zlen x) (t_off t) ltac:(lia) ltac:(lia) ltac:(lia) ltac:(lia) Vt') as (Ln & _).
  destruct (C72_token_offset_exact n i _ (t_depth t) _ (t_off t) Vt ltac:(lia) ltac:(lia) ltac:(lia) ltac:(lia)) as (T & _ & O). rewrite Z.mod_small in O by lia.
  exists (t_off t). cbv zeta. fold p. set (len := Z.lor (2 * p) (zlen x)) in *. split; [lia|]. split; [exact Sl|]. split; [exact O|]. split; [exact Ln|]. intros Hl Cr.
  assert (Q1 : Z.land len 0xFFFF = len) by (change 0xFFFF with (Z.ones 16); rewrite Z.land_ones by lia; apply Z.mod_small; lia).
  assert (Rw : toRawStringAtIndex n i = Some (Ok (slice (doc ++ rest) (t_off t) len))).
  { rewrite (rawIndex_fields _ _ _ _ _ T O Ln). change (isNameTok 0) with true. cbv iota. rewrite Q1, <- N2. apply C18_no_cr; [unfold PropertiesNav.inside; rewrite N2; lia | exact N3 | rewrite N2; exact Cr]. }
  split; [exact Rw|]. split; [unfold toStringAtIndex; rewrite T; cbn [nbind]; exact Rw|]. rewrite Rw. split.
  - intros Q. injection Q as Q. apply (f_equal zlen) in Q. rewrite <- Q. clear Q. clearbody len. unfold slice, zlen. rewrite firstn_length, skipn_length. unfold zlen in Hl. lia.
  - intros ->. rewrite Sl. reflexivity.
Qed.
Print Assumptions C116_names_exact.

(** ** Concrete documents *)
Definition prefixed : string := "<a><p:e/><p:ee/><pp:e/><pp:ee/></a>".
(** The names of 3, 4, 4 and 5 bytes have prefixes of 1, 1, 2 and 2 bytes. *)
Example C116_example : map (fun x => Z.lor (2 * prefix_from 1 (lit x)) (zlen (lit x))) ["p:e"; "p:ee"; "pp:e"; "pp:ee"]%string = [3; 6; 4; 5] /\
  names_visited prefixed (DirFirstChild :: tour true [2; 3; 4; 5]) = Some [lit "a"; lit "p:e"; lit "p:ee/>"; lit "pp:e"; lit "pp:ee"].
Proof. split; vm_compute; reflexivity. Qed.
