(** The pieces of a document do not overlap: the bytes a token stands for end before
    those of the next token start. *)
From Verif Require Import Lib XmlChar Buffer BufferProofs SpecBuffer Reader ParserState ParserPrim ParserProc ParserMain SpecParse ParserWp ParserOutcome ParserFrame
  SpecToken TokenProofs SpecNav Nav NavStrProofs PropertiesNav NavMoveProofs NavCacheProofs SpecChar SpecDoc SpecWindow SpecLoc SpecPart SpecNested SpecContent DocScan DocBase DocLoc DocMain DocShow DocCut NavParsed PropertiesParse PropertiesQuirks PropertiesDoc PartProofs PropertiesPages PropertiesTree PropertiesRead PropertiesOrder PropertiesNames PropertiesNested PropertiesContent.

(** Empty pieces aside, the tokens [ts] of the bytes [xs] are one after the other
    between [lo] and [hi]. *)
Fixpoint apart (lo : Z) (ts : list tok) (xs : list (list byte)) (hi : Z) : Prop :=
  match ts, xs with
  | [], [] => lo <= hi
  | t :: ts', x :: xs' => x = [] /\ apart lo ts' xs' hi \/ lo <= t_off t /\ apart (t_off t + zlen x) ts' xs' hi
  | _, _ => False
  end.
Lemma apart_le ts : forall lo xs hi, apart lo ts xs hi -> lo <= hi.
Proof. induction ts as [|t ts IH]; intros lo [|x xs] hi H; try contradiction; [exact H|]. cbn [apart] in H. destruct H as [(_ & H)|(L & H)]; [exact (IH _ _ _ H)|]. specialize (IH _ _ _ H). pose proof (zlen_nonneg x). lia. Qed.
Lemma apart_weak ts : forall lo lo' xs hi hi', apart lo ts xs hi -> lo' <= lo -> hi <= hi' -> apart lo' ts xs hi'.
Proof.
  induction ts as [|t ts IH]; intros lo lo' [|x xs] hi hi' H L M; try contradiction; cbn [apart] in *; [lia|]. destruct H as [(-> & H)|(Lt & H)]; [left; split; [reflexivity | exact (IH _ _ _ _ _ H L M)] | right; split; [lia | exact (IH _ _ _ _ _ H (Z.le_refl _) M)]].
Qed.
Lemma apart_app ts : forall lo xs mid ts2 xs2 hi, apart lo ts xs mid -> apart mid ts2 xs2 hi -> apart lo (ts ++ ts2) (xs ++ xs2) hi.
Proof.
  induction ts as [|t ts IH]; intros lo [|x xs] mid ts2 xs2 hi H H2; try contradiction; cbn [app apart] in *; [exact (apart_weak _ _ _ _ _ _ H2 H (Z.le_refl _))|].
  destruct H as [(-> & H)|(Lt & H)]; [left; split; [reflexivity | exact (IH _ _ _ _ _ _ H H2)] | right; split; [exact Lt | exact (IH _ _ _ _ _ _ H H2)]].
Qed.
Lemma apart_lo ts : forall lo xs hi j t x, apart lo ts xs hi -> value_at ts j t -> value_at xs j x -> x <> [] -> lo <= t_off t /\ t_off t + zlen x <= hi.
Proof.
  induction ts as [|c ts IH]; intros lo [|y xs] hi j t x H A B N; try contradiction; [destruct A as ([|] & ? & E & _); discriminate E|]. cbn [apart] in H.
  destruct A as ([|a u] & v & E & L); destruct B as ([|b u'] & v' & E' & L'); cbn [app length] in *; try lia.
  - injection E as -> ->. injection E' as -> ->. destruct H as [(-> & _)|(H & H')]; [contradiction|]. apply apart_le in H'. lia.
  - injection E as <- E. injection E' as <- E'. assert (A1 : value_at ts (j - 1) t) by (exists u, v; split; [exact E | lia]). assert (B1 : value_at xs (j - 1) x) by (exists u', v'; split; [exact E' | lia]).
    destruct H as [(_ & H)|(H & H')]; [exact (IH _ _ _ _ _ _ H A1 B1 N)|]. destruct (IH _ _ _ _ _ _ H' A1 B1 N). pose proof (zlen_nonneg y). lia.
Qed.
Lemma apart_two ts : forall lo xs hi i j t x t' x', apart lo ts xs hi -> i < j -> value_at ts i t -> value_at xs i x -> value_at ts j t' -> value_at xs j x' -> x <> [] -> x' <> [] -> t_off t + zlen x <= t_off t'.
Proof.
  induction ts as [|c ts IH]; intros lo [|y xs] hi i j t x t' x' H I A B A' B' N N'; try contradiction; [destruct A as ([|] & ? & E & _); discriminate E|]. cbn [apart] in H.
  destruct A' as ([|a' u2] & v2 & E2 & L2); [destruct A as (? & ? & _ & L); cbn [length] in *; lia|]. destruct B' as ([|b' w2] & z2 & E3 & L3); [cbn [length] in *; lia|]. cbn [app length] in *. injection E2 as <- E2. injection E3 as <- E3.
  assert (A1 : value_at ts (j - 1) t') by (exists u2, v2; split; [exact E2 | lia]). assert (B1 : value_at xs (j - 1) x') by (exists w2, z2; split; [exact E3 | lia]).
  destruct A as ([|a u] & v & E & L); destruct B as ([|b u'] & v' & E' & L'); cbn [app length] in *; try lia.
  - injection E as -> ->. injection E' as -> ->. destruct H as [(-> & _)|(_ & H)]; [contradiction|]. exact (proj1 (apart_lo _ _ _ _ _ _ _ H A1 B1 N')).
  - injection E as _ E. injection E' as _ E'. assert (A2 : value_at ts (i - 1) t) by (exists u, v; split; [exact E | lia]). assert (B2 : value_at xs (i - 1) x) by (exists u', v'; split; [exact E' | lia]).
    destruct H as [(_ & H)|(_ & H)]; exact (IH _ _ _ (i - 1) (j - 1) _ _ _ _ H ltac:(lia) A2 B2 A1 B1 N N').
Qed.

(** ** The tokens of a document *)
Lemma attr_apart p d a : apart p (attr_toks p d a) (attr_parts a) (p + zlen (render_attr a)).
Proof.
  unfold attr_toks, attr_parts, render_attr. cbv zeta. rewrite !zlen_app. repeat rewrite zlen_cons. rewrite !zlen_nil. change (zlen (lit "=")) with 1. cbn [apart t_off].
  pose proof (zlen_nonneg (a_ws a)). pose proof (zlen_nonneg (a_name a)). pose proof (zlen_nonneg (a_eq1 a)). pose proof (zlen_nonneg (a_eq2 a)). pose proof (zlen_nonneg (a_value a)). right. split; [lia|]. right. lia.
Qed.
Lemma attrs_apart d l : forall p, apart p (attrs_toks p d l) (flat_map attr_parts l) (p + zlen (render_attrs l)).
Proof.
  induction l as [|a l IH]; intros p; [cbn; lia|]. cbn [attrs_toks flat_map]. unfold render_attrs. cbn [map concat]. rewrite zlen_app, Z.add_assoc. fold (render_attrs l). apply (apart_app _ _ _ (p + zlen (render_attr a))); [apply attr_apart | apply IH].
Qed.
Lemma markup_apart j p d m : zlen (render_markup m) <= max_token -> apart p (markup_toks j p d m) (markup_parts m) (p + zlen (render_markup m)).
Proof.
  intros L. destruct m as [n atts tail e|n w|x|x|n [(b, x)|]|x]; cbn [render_markup markup_toks markup_parts] in *; rewrite !zlen_app in *.
  - pose proof (zlen_nonneg tail). pose proof (zlen_nonneg (if e then lit "/>" else lit ">")). cbn [apart]. right. cbn [t_off]. split; [lia|]. apply (apart_weak _ (p + zlen n) _ _ (p + zlen n + zlen (render_attrs atts))); [apply attrs_apart | lia | lia].
  - pose proof (zlen_nonneg n). pose proof (zlen_nonneg w). cbn [apart]. change (zlen (lit "/")) with 1. change (zlen (lit ">")) with 1. lia.
  - change (zlen (lit "!--")) with 3 in *. change (zlen (lit "-->")) with 3 in *. rewrite text_short by lia. cbn [apart t_off]. right. lia.
  - change (zlen (lit "![CDATA[")) with 8 in *. change (zlen (lit "]>")) with 2 in *. rewrite text_short by lia. cbn [apart t_off]. right. split; [lia|]. assert (zlen (removelast x) <= zlen x); [|lia].
    destruct x as [|b x] using rev_ind; [apply Z.le_refl|]. rewrite removelast_last, zlen_app. pose proof (zlen_nonneg [b]). lia.
  - change (zlen (lit "?")) with 1 in *. change (zlen (lit "?>")) with 2 in *. change (zlen [b]) with 1 in *. cbn [apart t_off]. right. split; [lia|]. right. lia.
  - change (zlen (lit "?")) with 1 in *. change (zlen (lit "?>")) with 2 in *. cbn [apart t_off]. right. split; [lia|]. left. split; [reflexivity | lia].
  - change (zlen (lit "!DDOCTYPE")) with 9 in *. change (zlen (lit ">")) with 1 in *. cbn [apart t_off]. right. lia.
Qed.
Lemma gap_apart p d m g next : zlen (render_gap g) <= max_token -> apart p (gap_toks p d m g next) (gap_parts m g next) (p + zlen (render_gap g)).
Proof.
  intros L. destruct g as [x|w r]; cbn [gap_toks gap_parts render_gap] in *; rewrite zlen_app in *; [|cbn [apart]; pose proof (zlen_nonneg w); pose proof (zlen_nonneg r); lia].
  change (zlen (lit "<")) with 1 in *. pose proof (zlen_nonneg x). destruct (_ && _); [cbn [apart]; lia|]. rewrite text_short by lia. cbn [apart t_off]. right. lia.
Qed.
Lemma body_apart l : forall j p st f, zlen (render_body j l f) <= max_token -> apart p (body_toks j p st l f) (body_parts l f) (p + zlen (render_body j l f)).
Proof.
  induction l as [|(m, g) l IH]; intros j p st f L; cbn [render_body body_toks body_parts] in *; unfold render_first in *; rewrite !zlen_app in *.
  - pose proof (zlen_nonneg (lead j f)). apply (apart_weak _ (p + zlen (lead j f)) _ _ (p + zlen (lead j f) + zlen (render_markup f))); [apply markup_apart; lia | lia | lia].
  - pose proof (zlen_nonneg (lead j m)). pose proof (zlen_nonneg (render_markup m)). pose proof (zlen_nonneg (render_gap g)). pose proof (zlen_nonneg (render_body [] l f)).
    apply (apart_app _ _ _ (p + zlen (lead j m) + zlen (render_markup m))); [apply (apart_weak _ (p + zlen (lead j m)) _ _ (p + zlen (lead j m) + zlen (render_markup m))); [apply markup_apart; lia | lia | lia]|].
    apply (apart_app _ _ _ (p + (zlen (lead j m) + zlen (render_markup m)) + zlen (render_gap g))); [|eapply apart_weak; [apply IH; lia | lia | lia]].
    eapply apart_weak; [apply gap_apart; lia | lia | lia].
Qed.
Lemma epi_apart p e : apart p (epi_toks p e) (epi_parts e) (p + zlen (render_epi e)).
Proof.
  unfold epi_toks, epi_parts, render_epi. cbv zeta. rewrite !zlen_app. change (zlen (lit "<?")) with 2. pose proof (zlen_nonneg (p_ws e)). pose proof (zlen_nonneg (p_target e)). cbn [apart]. right. cbn [t_off]. split; [lia|].
  destruct (p_value e) as [(b, x)|]; cbn [t_off].
  - rewrite !zlen_app. change (zlen [b]) with 1. change (zlen (lit "?>")) with 2. pose proof (zlen_nonneg x). right. lia.
  - change (zlen (lit "?")) with 1. left. split; [reflexivity | lia].
Qed.
Lemma epilog_apart l w : forall p, apart p (epilog_toks p l) (flat_map epi_parts l) (p + zlen (render_epilog l w)).
Proof. induction l as [|e l IH]; intros p; cbn [epilog_toks flat_map render_epilog]; [cbn [apart]; pose proof (zlen_nonneg w); lia|]. rewrite zlen_app, Z.add_assoc. apply (apart_app _ _ _ (p + zlen (render_epi e))); [apply epi_apart | apply IH]. Qed.
Lemma firstn_le {A} k (l : list A) : zlen (firstn k l) <= zlen l.
Proof. unfold zlen. rewrite firstn_length. lia. Qed.
Lemma decl_apart p d : wf_decl d -> apart p (decl_toks p d) (start_parts (SDecl d)) (p + zlen (render_decl d)).
Proof.
  intros (X & _). assert (X3 : zlen (d_xml d) = 3) by (destruct (d_xml d) as [|a [|b [|c [|e r]]]]; try contradiction; reflexivity).
  unfold render_decl, decl_toks. cbn [start_parts]. cbv zeta. rewrite !zlen_app. change (zlen (lit "<?")) with 2. change (zlen (lit "version")) with 7. change (zlen (lit "=")) with 1. change (zlen [d_quote d]) with 1. change (zlen (lit "1.")) with 2. change (zlen [d_minor d]) with 1. change (zlen (lit "?>")) with 2.
  pose proof (zlen_nonneg (d_ws d)). pose proof (zlen_nonneg (d_eq1 d)). pose proof (zlen_nonneg (d_eq2 d)). pose proof (zlen_nonneg (d_tail d)). pose proof (zlen_nonneg (render_rest (d_rest d))).
  rewrite X3. set (pv := p + 5 + zlen (d_ws d)). set (px := pv + 7 + zlen (d_eq1 d) + 1 + zlen (d_eq2 d) + 1).
  match goal with |- apart _ (?a :: ?b :: ?r) (?xs ++ ?ys) ?hi => change (apart p ([a; b] ++ r) (xs ++ ys) hi); set (H9 := hi) end.
  assert (HH : H9 = px + 4 + zlen (render_rest (d_rest d)) + 2 + zlen (d_tail d)) by (unfold H9, px, pv; lia). clearbody H9. subst H9.
  apply (apart_app _ _ _ (px + 4)).
  { cbn [apart t_off]. right. split; [unfold pv; lia|]. change (zlen (lit "version")) with 7. right. rewrite zlen_app. change (zlen (lit "1.")) with 2. change (zlen [d_minor d]) with 1. unfold px. lia. }
  destruct (d_rest d) as [((w, e), a)|]; [|cbn [apart]; lia]. cbn [render_rest] in *. rewrite !zlen_app in *. pose proof (zlen_nonneg w). pose proof (zlen_nonneg (render_opt render_encoding e)). pose proof (zlen_nonneg (render_opt render_standalone a)).
  apply (apart_app _ _ _ (px + 4 + zlen w + zlen (render_opt render_encoding e))).
  - destruct e as [e|]; [|cbn [apart]; lia]. cbn [render_opt]. unfold render_encoding, enc_toks. rewrite !zlen_app. change (zlen (lit "encoding")) with 8. change (zlen (lit "=")) with 1. change (zlen [e_q1 e]) with 1. change (zlen [e_q2 e]) with 1.
    pose proof (zlen_nonneg (e_eq1 e)). pose proof (zlen_nonneg (e_eq2 e)). pose proof (zlen_nonneg (e_value e)). pose proof (zlen_nonneg (e_tail e)).
    assert (zlen (enc_part e) <= zlen (e_value e) + 1).
    { assert (Q : forall k, zlen (firstn k (e_value e ++ [e_q2 e])) <= zlen (e_value e) + 1) by (intros k; pose proof (firstn_le k (e_value e ++ [e_q2 e])) as F; rewrite zlen_app in F; exact F).
      assert (Q' : forall k, zlen (firstn k (e_value e)) <= zlen (e_value e) + 1) by (intros k; pose proof (firstn_le k (e_value e)); lia).
      unfold enc_part. destruct (e_value e) as [|[] ?]; solve [apply Q | apply Q']. }
    cbn [apart t_off]. right. change (zlen (lit "encoding")) with 8. split; [lia|]. right. lia.
  - destruct a as [a|]; [|cbn [apart]; lia]. cbn [render_opt]. unfold render_standalone, sta_toks. rewrite !zlen_app. change (zlen (lit "standalone")) with 10. change (zlen (lit "=")) with 1. change (zlen [s_q1 a]) with 1. change (zlen [s_q2 a]) with 1.
    pose proof (zlen_nonneg (s_eq1 a)). pose proof (zlen_nonneg (s_eq2 a)). pose proof (zlen_nonneg (sta_value a)). pose proof (zlen_nonneg (s_tail a)). pose proof (firstn_le (if s_yes a then 3 else 2) (sta_value a)).
    cbn [apart t_off]. right. change (zlen (lit "standalone")) with 10. split; [lia|]. right. lia.
Qed.
Lemma tokens_apart p d : wf d -> zlen (render d) <= max_token -> apart p (tl (tokens p d)) (parts d) (p + zlen (render d)).
Proof.
  intros (W1 & _) L. unfold tokens, parts. cbv zeta. cbn [tl]. unfold render in *. rewrite !zlen_app in *. pose proof (zlen_nonneg (render_start (d_start d))). pose proof (zlen_nonneg (d_body d)). pose proof (zlen_nonneg (render_epilog (d_epis d) (d_end d))).
  apply (apart_app _ _ _ (p + zlen (render_start (d_start d)))).
  - destruct (d_start d) as [j|w|dc]; cbn [start_toks start_parts wf_start render_start] in *; [cbn [apart]; lia..|]. rewrite zlen_app. eapply apart_weak; [apply decl_apart; exact W1 | lia | change (zlen (lit "<")) with 1; lia].
  - apply (apart_app _ _ _ (p + zlen (render_start (d_start d)) + zlen (d_body d))); [apply body_apart; unfold d_body in *; lia|]. eapply apart_weak; [apply (epilog_apart _ (d_end d)) | lia | lia].
Qed.

(** ** C122 *)
(** The token after the [i]-th piece is at the bytes of the piece, and those of a later
    one are after them. *)
Definition placed_in (s : pst) (buffer : list byte) (n0 : Z) (content : list piece) : Prop :=
  forall n, over n s buffer ->
  (forall i ty d y, value_at content i (ty, d, y) -> i + 1 < first_page n0 -> y <> [] ->
     exists o, getTokenOffset n (i + 1) = Ok o /\ 0 <= o /\ o + zlen y <= zlen buffer /\ slice buffer o (zlen y) = y) /\
  (forall i j ty d y ty' d' y', i < j -> value_at content i (ty, d, y) -> value_at content j (ty', d', y') -> j + 1 < first_page n0 -> y <> [] -> y' <> [] ->
     exists o o', getTokenOffset n (i + 1) = Ok o /\ getTokenOffset n (j + 1) = Ok o' /\ o + zlen y <= o').
Theorem C122_disjoint_partial : forall opts doc rest off s, scans opts doc rest off -> zlen (doc ++ rest) < 2^20 - 1 -> runParser opts = Parsed s ->
  exists x, xwf x /\ xshows x (window doc off) rest /\ placed_in s (doc ++ rest) (zlen (window doc off)) (pieces_of enc_part x).
Proof.
  intros opts doc rest off s R B E. destruct (accepted _ _ _ _ _ R E) as (_ & d & W & S & X). destruct (wf_tree_doc d W) as (x & Xw & <-). exists x. split; [exact Xw|].
  split; [unfold shows, xshows in *; rewrite doc_render in S by apply Xw; exact S|]. pose proof (zlen_app doc rest) as LA. pose proof (zlen_nonneg rest). pose proof R as (_ & _ & Ho & _).
  destruct (window_length _ _ _ _ _ R S) as (WL & WL'). pose proof (parts_ok opts doc rest off (to_doc x) R W S ltac:(lia)) as F. pose proof (forall2_len _ _ _ F) as FL.
  assert (LB : zlen (d_body (to_doc x)) <= max_token).
  { destruct (shows_parts _ _ _ W S) as (w & r & _ & _ & Lq & _). unfold d_body, max_token in *. pose proof (zlen_nonneg (render_start (d_start (to_doc x)))). lia. }
  pose proof (doc_zip off x Xw LB) as Z. pose proof (tokens_apart off (to_doc x) W ltac:(unfold max_token; lia)) as AP.
  intros n (N1 & N2 & N3).
  assert (OF : forall i t y, value_at (tl (tokens off (to_doc x))) i t -> value_at (parts (to_doc x)) i y -> i + 1 < first_page (zlen (window doc off)) -> y <> [] ->
    getTokenOffset n (i + 1) = Ok (t_off t) /\ 0 <= t_off t /\ t_off t + zlen y <= zlen (doc ++ rest) /\ slice (doc ++ rest) (t_off t) (zlen y) = y).
  { intros i t y V1 V2 I Ny. pose proof (forall2_at _ _ _ _ _ _ F V1 V2) as St. destruct (stands_slice _ _ _ St ltac:(lia) Ny) as (Sl & O0 & O1). split; [|split; [exact O0 | split; [exact O1 | exact Sl]]].
    pose proof St as (_ & _ & S1 & S2 & S3 & S4 & S5). pose proof (zlen_nonneg y).
    assert (V3 : value_at (tokens off (to_doc x)) (i + 1) t).
    { unfold tokens in *. cbv zeta in *. cbn [tl] in V1. destruct V1 as (u & v & Eu & Lu). rewrite Eu. exists (Tok 13 0 0 (-1) :: u), v. split; [reflexivity | cbn [length]; lia]. }
    unfold getTokenOffset, longAt. rewrite N1. destruct X as (_ & _ & X). rewrite (proj2 (bat_read _ _ _ _ _ (word t) X)); [|split; [apply value_at_map; exact V3 | rewrite <- first_page_exp, <- WL'; exact I]].
    cbn [obind]. rewrite tokOffset_field, word_off by lia. f_equal. apply Z.mod_small. lia. }
  split.
  - intros i ty d y V I Ny. rewrite <- Z in V. destruct (zip_at _ _ _ _ FL V) as (t & y' & V1 & V2 & Ep). injection Ep as -> -> <-. exists (t_off t). exact (OF i t y V1 V2 I Ny).
  - intros i j ty d y ty' d' y' Ij V V' J Ny Ny'. rewrite <- Z in V, V'. destruct (zip_at _ _ _ _ FL V) as (t & z & V1 & V2 & Ep). injection Ep as -> -> <-. destruct (zip_at _ _ _ _ FL V') as (t' & z' & V1' & V2' & Ep). injection Ep as -> -> <-.
    exists (t_off t), (t_off t'). split; [apply (OF i t y V1 V2 ltac:(lia) Ny)|]. split; [apply (OF j t' y' V1' V2' J Ny')|]. exact (apart_two _ _ _ _ _ _ _ _ _ _ AP Ij V1 V2 V1' V2' Ny Ny').
Qed.
Print Assumptions C122_disjoint_partial.
(** Offsets and pieces of the tokens of [kinds] *)
Example C122_example : match nav_over kinds with
  | Some n => map (fun p => getTokenOffset n p) [1; 2; 3; 4; 5; 6; 7; 8; 9; 10] = map (fun o => Ok o) [1; 7; 12; 15; 19; 35; 42; 49; 54; 59] /\
      map (fun p => zlen (snd p)) (pieces_of enc_part kinds_tree) = [4; 4; 1; 1; 3; 3; 5; 4; 4; 1]
  | None => False
  end.
Proof. vm_compute. split; reflexivity. Qed.
