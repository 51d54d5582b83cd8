(** The whole of Parse related to the grammar of SpecDoc. *)
From Verif Require Import Lib XmlChar XmlCharProofs Buffer BufferProofs Reader ParserState ParserPrim ParserProc ParserMain
  SpecParse SpecChar SpecDoc ParserWp ParserInv ParserInvTag ParserInvMain ParserOutcome TokenProofs SpecToken
  DocScan DocBase DocGap DocTag DocItem DocBody DocStart PropertiesParse.

(** ** Number of tokens *)
Ltac zl := repeat first [progress rewrite zlen_app | progress rewrite zlen_cons | progress rewrite zl0 | progress change (zlen (@nil byte)) with 0 | progress change (zlen (@nil tok)) with 0].
Lemma pieces_count n : forall ty off len d, zlen (pieces n ty off len d) <= Z.max 1 len.
Proof.
  induction n as [|n IH]; intros ty off len d; cbn [pieces]; [rewrite zl0; lia|].
  destruct (Z.leb_spec len max_token); [rewrite zlen_cons, zl0; lia|]. rewrite zlen_cons. specialize (IH ty (off + max_token) (len - max_token) d). unfold max_token in *. lia.
Qed.
Lemma text_count ty off len d : zlen (text_toks ty off len d) <= Z.max 1 len.
Proof. unfold text_toks. destruct (len <=? max_token); [rewrite zlen_cons, zl0; lia | apply pieces_count]. Qed.
Lemma attrs_count l : forall p d, zlen (attrs_toks p d l) <= zlen (render_attrs l).
Proof.
  induction l as [|a l IH]; intros p d; cbn [attrs_toks]; [rewrite zl0; apply zlen_nonneg|]. rewrite zlen_app. specialize (IH (p + zlen (render_attr a)) d). revert IH. generalize (attrs_toks (p + zlen (render_attr a)) d l). intros T IH.
  change (render_attrs (a :: l)) with (render_attr a ++ render_attrs l). rewrite zlen_app. unfold attr_toks, render_attr. cbv zeta. zl.
  pose proof (zlen_nonneg (a_ws a)). pose proof (zlen_nonneg (a_name a)). pose proof (zlen_nonneg (a_eq1 a)). pose proof (zlen_nonneg (a_eq2 a)). pose proof (zlen_nonneg (a_value a)). lia.
Qed.
Lemma markup_count j p d m : zlen (markup_toks j p d m) <= zlen (render_markup m).
Proof.
  destruct m as [n a t e|n w|y|y|n v|y]; cbn [markup_toks render_markup].
  - rewrite zlen_cons, !zlen_app. pose proof (attrs_count a (p + zlen n) (d + 1)). pose proof (zlen_nonneg n). pose proof (zlen_nonneg t).
    assert (1 <= zlen (if e then lit "/>" else lit ">")) by (destruct e; vm_compute; discriminate). lia.
  - rewrite zl0. apply zlen_nonneg.
  - pose proof (text_count 6 (p + 3) (zlen y) d). rewrite !zlen_app. change (zlen (lit "!--")) with 3. change (zlen (lit "-->")) with 3. pose proof (zlen_nonneg y). lia.
  - pose proof (text_count 11 (p + 8) (zlen y - 1) d). rewrite !zlen_app. change (zlen (lit "![CDATA[")) with 8. pose proof (zlen_nonneg y). pose proof (zlen_nonneg (lit "]>")). lia.
  - pose proof (zlen_nonneg n). destruct v as [[b x]|]; rewrite !zlen_cons, zl0, !zlen_app; change (zlen (lit "?")) with 1; change (zlen (lit "?>")) with 2; [pose proof (zlen_nonneg x); pose proof (zlen_nonneg [b])|]; lia.
  - rewrite zlen_cons, zl0, !zlen_app. change (zlen (lit "!DDOCTYPE")) with 9. pose proof (zlen_nonneg y). pose proof (zlen_nonneg (lit ">")). lia.
Qed.
Lemma gap_count p d m g nx : zlen (gap_toks p d m g nx) <= zlen (render_gap g).
Proof.
  destruct g as [x|w r]; cbn [gap_toks render_gap]; [|rewrite zl0; apply zlen_nonneg]. rewrite zlen_app. change (zlen (lit "<")) with 1. pose proof (zlen_nonneg x).
  destruct (blank x && negb (is_open m && is_end nx)); [rewrite zl0; lia|]. pose proof (text_count 5 p (zlen x) d). lia.
Qed.
Lemma decl_count p d : zlen (decl_toks p d) <= zlen (render_decl d).
Proof.
  unfold decl_toks. cbv zeta. rewrite !zlen_cons. unfold render_decl. rewrite !zlen_app.
  pose proof (zlen_nonneg (d_xml d)). pose proof (zlen_nonneg (d_ws d)). pose proof (zlen_nonneg (d_eq1 d)). pose proof (zlen_nonneg (d_eq2 d)). pose proof (zlen_nonneg (d_tail d)).
  change (zlen (lit "version")) with 7. change (zlen [d_quote d]) with 1. change (zlen [d_minor d]) with 1.
  pose proof (zlen_nonneg (lit "<?")). pose proof (zlen_nonneg (lit "=")). pose proof (zlen_nonneg (lit "1.")). pose proof (zlen_nonneg (lit "?>")). pose proof (zlen_nonneg (render_rest (d_rest d))).
  destruct (d_rest d) as [[[w e] a]|]; [|rewrite zl0; lia]. rewrite zlen_app.
  assert (zlen (match e with Some e0 => enc_toks (p + 5 + zlen (d_ws d) + 7 + zlen (d_eq1 d) + 1 + zlen (d_eq2 d) + 1 + 4 + zlen w) e0 | None => [] end) <= 2) by (destruct e; vm_compute; discriminate).
  match goal with |- context [match a with Some a => sta_toks ?q a | None => [] end] => assert (zlen (match a with Some a => sta_toks q a | None => [] end) <= 2) by (destruct a; vm_compute; discriminate) end. lia.
Qed.
Lemma epilog_count l w : forall p, zlen (epilog_toks p l) <= zlen (render_epilog l w).
Proof.
  induction l as [|e l IH]; intros p; cbn [epilog_toks render_epilog]; [rewrite zl0; apply zlen_nonneg|]. rewrite !zlen_app. specialize (IH (p + zlen (render_epi e))). revert IH. generalize (epilog_toks (p + zlen (render_epi e)) l). intros T IH.
  unfold epi_toks. cbv zeta. rewrite !zlen_cons, zl0. unfold render_epi in *. rewrite !zlen_app in *. change (zlen (lit "<?")) with 2 in *.
  pose proof (zlen_nonneg (p_ws e)). pose proof (zlen_nonneg (p_target e)). pose proof (zlen_nonneg (match p_value e with None => lit "?" | Some (b, x) => [b] ++ x ++ lit "?>" end)). lia.
Qed.
Lemma closing_count j p d m : closes m -> zlen (markup_toks j p d m) + 1 <= zlen (render_markup m).
Proof.
  destruct m as [n a t []|n w|y|y|n v|y]; cbn [closes markup_toks render_markup]; try contradiction; intros _.
  - rewrite zlen_cons, !zlen_app. pose proof (attrs_count a (p + zlen n) (d + 1)). pose proof (zlen_nonneg n). pose proof (zlen_nonneg t). change (zlen (lit "/>")) with 2. lia.
  - rewrite zl0, !zlen_app. change (zlen (lit "/")) with 1. pose proof (zlen_nonneg n). pose proof (zlen_nonneg w). pose proof (zlen_nonneg (lit ">")). lia.
Qed.
Lemma body_count l f : closes f -> forall j p st, zlen (body_toks j p st l f) + 1 <= zlen (render_body j l f).
Proof.
  intros C. induction l as [|[m g] l IH]; intros j p st; cbn [body_toks render_body]; unfold render_first; rewrite ?zlen_app.
  - pose proof (closing_count j (p + zlen (lead j f)) (depth st) f C). pose proof (zlen_nonneg (lead j f)). lia.
  - pose proof (markup_count j (p + zlen (lead j m)) (depth st) m). pose proof (zlen_nonneg (lead j m)).
    pose proof (gap_count (p + (zlen (lead j m) + zlen (render_markup m))) (depth (after m st)) m g (next_of l f)).
    pose proof (IH [] (p + (zlen (lead j m) + zlen (render_markup m)) + zlen (render_gap g)) (after m st)). lia.
Qed.
Lemma body_closes l : forall j st f, wf_body j st l f -> closes f.
Proof. induction l as [|(m, g) l IH]; intros j st f W; cbn [wf_body] in W; [apply W|]. destruct W as (_ & _ & _ & W). exact (IH _ _ _ W). Qed.
Lemma tokens_count p d : wf d -> zlen (tokens p d) + 1 <= zlen (render d).
Proof.
  intros (_ & W & _). unfold tokens, render. cbv zeta. rewrite zlen_cons, !zlen_app.
  pose proof (body_count (d_items d) (d_final d) (body_closes _ _ _ _ W) (junk_of (d_start d)) (p + zlen (render_start (d_start d))) []). fold (d_body d) in *.
  pose proof (epilog_count (d_epis d) (d_end d) (p + zlen (render_start (d_start d)) + zlen (d_body d))).
  assert (zlen (start_toks p (d_start d)) + 1 <= zlen (render_start (d_start d))).
  { destruct (d_start d) as [j|w|dd]; cbn [start_toks render_start]; [rewrite zl0; vm_compute; discriminate | rewrite zl0, zlen_app; pose proof (zlen_nonneg w); change (zlen (lit "<")) with 1; lia|].
    rewrite zlen_app. pose proof (decl_count p dd). change (zlen (lit "<")) with 1. lia. }
  lia.
Qed.

(** ** Junk at the start *)
Lemma first_junk j st m : wf_markup j st m -> exists b t, render_first j m = j ++ b :: t.
Proof.
  intros H. unfold render_first. destruct m as [n a t e|n w|y|y|n v|y]; cbn [lead render_markup wf_markup] in *; try (eexists _, _; reflexivity).
  - destruct H as ((n' & -> & (b & u & -> & _)) & _). rewrite <- app_assoc. cbn [app]. eexists _, _. reflexivity.
  - destruct v as [[b x]|]; eexists _, _; reflexivity.
Qed.
Lemma body_junk j st l f : wf_body j st l f -> exists b t, render_body j l f = j ++ b :: t.
Proof.
  destruct l as [|[m g] l]; cbn [wf_body render_body].
  - intros (H & _). apply (first_junk _ _ _ H).
  - intros (H & _). destruct (first_junk _ _ _ H) as (b & t & ->). rewrite <- app_assoc. cbn [app]. eexists _, _. reflexivity.
Qed.
Lemma app_inv_cons {A} (j : list A) b t c u : j ++ b :: t = j ++ c :: u -> b = c.
Proof. intros H. apply app_inv_head in H. injection H as H _. exact H. Qed.
Lemma start_more S body r : wf_start S body -> wf_start S (body ++ r).
Proof. destruct S as [j|w|d]; cbn [wf_start]; [|auto..]. intros (b & t & -> & J). exists b, (t ++ r). split; [rewrite <- app_assoc; reflexivity | exact J]. Qed.
Lemma start_less S st l f r : wf_body (junk_of S) st l f -> wf_start S (render_body (junk_of S) l f ++ r) -> wf_start S (render_body (junk_of S) l f).
Proof.
  intros Hb. destruct S as [j|w|d]; cbn [wf_start junk_of] in *; [|auto..]. intros (b & t & E & J). destruct (body_junk _ _ _ _ Hb) as (c & u & E2).
  rewrite E2 in E |- *. rewrite <- app_assoc in E. cbn [app] in E. exists c, u. split; [reflexivity|]. rewrite (app_inv_cons _ _ _ _ _ E). exact J.
Qed.

(** ** The main loop *)
Section Main.
Variable cf : cfg.
Notation doc := (c_doc cf).
Hypothesis HE : c_end cf = zlen doc.
Hypothesis HD : zlen doc < 2^31.
Hypothesis HN : c_ns cf = false.
Notation fin := (fun n => parseLoop cf n StDocEnd).
(* local notations *)
Local Notation At := (DocScan.At cf).
Local Notation At_len := (DocScan.At_len cf).
Local Notation At_cons := (DocScan.At_cons cf).
Local Notation At_app := (DocScan.At_app cf).
Local Notation At_exists := (DocScan.At_exists cf).
Local Notation Base := (DocBase.Base cf).
Local Notation write_ok := (DocBase.write_ok cf).
Local Notation reach_trans := (DocBase.reach_trans cf fin).
Local Notation loop_parse := (DocBase.loop_parse cf).
Local Notation body_ok := (DocBody.body_ok cf fin HE HD HN).
Local Notation body_inv := (DocBody.body_inv cf fin HE HD HN).
Local Notation Final := (DocBody.Final cf).
Local Notation epilog_ok := (DocBody.epilog_ok cf fin HE HD).
Local Notation epilog_inv := (DocBody.epilog_inv cf fin HE HD).
Local Notation Dec := (DocStart.Dec cf).
Local Notation start_ok := (DocStart.start_ok cf fin HE HD).
Local Notation start_inv := (DocStart.start_inv cf fin HE HD).
(* end *)
Section Any.
Context {Nv : nsview}.

Lemma loop_ok p d c la s n : Dec [Tok 13 0 0 (-1)] p (render d) c la s -> wf d ->
  parseLoop cf n StDocStart s = RDiverge \/ exists s', parseLoop cf n StDocStart s = ROk tt s' /\ Final (tokens p d) s'.
Proof.
  intros HDc (W1 & W2 & W3). unfold render in HDc.
  destruct (start_ok _ _ _ _ _ _ _ HDc (start_more _ _ _ W1)) as (s1 & R1 & HR).
  destruct (body_ok _ _ _ _ _ _ _ _ _ HR W2) as (s2 & R2 & HS).
  pose proof (reach_trans _ _ _ _ _ _ R1 R2) as R. destruct (DocBase.reach_any _ _ _ _ _ _ R n) as [D|(n' & _ & D)]; rewrite loop_parse in D; [left; exact D|]. rewrite D, loop_parse.
  pose proof HR as (_ & H & _). apply At_app in H. fold (d_body d) in H, HS.
  destruct (epilog_ok _ _ _ _ _ n' HS H W3) as [(X & _)|(s3 & X & F)]; [left; exact X | right]. exists s3. split; [exact X|].
  unfold tokens. cbv zeta. rewrite <- !app_assoc in F. exact F.
Qed.
Lemma loop_inv' p l c la s n sf : Dec [Tok 13 0 0 (-1)] p l c la s -> parseLoop cf n StDocStart s = ROk tt sf -> exists d, l = render d /\ wf d.
Proof.
  intros HDc K. rewrite <- loop_parse in K. destruct (start_inv _ _ _ _ _ _ _ _ HDc K) as (S & l1 & -> & W1). destruct (start_ok _ _ _ _ _ _ _ HDc W1) as (s1 & R1 & HR).
  destruct (DocBase.reach_any _ _ _ _ _ _ R1 n) as [X|(n1 & _ & X)]; [congruence|]. rewrite X in K.
  destruct (body_inv n1 _ _ _ _ _ _ _ _ HR K) as (it & f & r & -> & W2). destruct (body_ok _ _ _ _ _ _ _ _ _ HR W2) as (s2 & R2 & HS).
  destruct (DocBase.reach_any _ _ _ _ _ _ R2 n1) as [Y|(n2 & _ & Y)]; [congruence|]. rewrite Y, loop_parse in K. pose proof HR as (_ & H & _). apply At_app in H.
  destruct (epilog_inv n2 _ _ _ _ _ HS H K) as (es & w & -> & W3). exists (Doc S it f es w). split; [reflexivity|]. split; [|split; [exact W2 | exact W3]].
  exact (start_less _ _ _ _ _ W2 W1).
Qed.

End Any.

Lemma fresh_dec s l : fresh (c_docOffset cf) s -> repr (vtdExp (c_docLength cf)) (s_vtd s) [] -> 0 <= c_docOffset cf -> At (c_docOffset cf) l ->
  exists s1, writeVtd TokDocument 0 0 (s_depth s) s = ROk tt s1 /\ @DocStart.Dec cf (nsv s) [Tok 13 0 0 (-1)] (c_docOffset cf) l 0 0 s1.
Proof.
  intros F Hv Ho H. destruct F as (vtd & l1 & l2 & l3 & l4 & l5 & ns1 & ns2 & ns3 & -> & _ & H1 & H2 & H3 & H4 & H5). set (s := initState _ _ _ _ _ _ _ _ _ _).
  assert (B : @DocBase.Base cf (nsv s) [] s).
  { unfold DocBase.Base. split; [reflexivity|]. split; [reflexivity|]. split; [reflexivity|]. split; [reflexivity|]. split; [reflexivity|]. split; [reflexivity|]. split; [reflexivity|]. split; [exact Hv|].
    unfold DocBase.lcOk, lc_run. cbn [fold_left snd]. replace (if c_shallow cf then lc0 else lc0) with lc0 by (destruct (c_shallow cf); reflexivity).
    split; [|split; reflexivity]. unfold lcIs. split; [reflexivity|]. split; [reflexivity|]. split; [reflexivity|]. split; [reflexivity|]. split; [reflexivity|]. split; [reflexivity|].
    split; [exact H1|]. split; [exact H2|]. split; [exact H3|]. split; [exact H4 | exact H5]. }
  destruct (write_ok [] s (Tok 13 0 0 (-1)) B ltac:(unfold fits; cbn; lia) ltac:(discriminate)) as (b & E & B').
  exists (set_vtd b s). split; [exact E|]. split.
  - split; [exact B'|]. split; [reflexivity|]. split; [intros k nm X; destruct k; discriminate X|]. split; [reflexivity|]. split; [reflexivity|]. split; [reflexivity|]. intros k nm X; destruct k; discriminate X.
  - split; [reflexivity|]. split; [split; reflexivity|]. split; [exact H|]. split; reflexivity.
Qed.
Lemma markup_first st m : wf_markup [] st m -> exists c u, render_markup m = c :: u /\ c <> x00.
Proof.
  intros Hm. destruct m as [n a t0 e|n w|y|y|n v|y]; cbn [wf_markup render_markup] in *; try (eexists _, _; split; [reflexivity | discriminate]).
  - destruct Hm as ((n' & -> & (c0 & u0 & -> & Hc & _)) & _). cbn [app]. eexists _, _. split; [reflexivity|]. intros ->. revert Hc. rewrite <- isNameStart_byte. discriminate.
  - destruct v as [[b x]|]; (eexists _, _; split; [reflexivity | discriminate]).
Qed.
(** The two first bytes of a document with start [S]. *)
Lemma start_first S l b t : wf_start S l -> (junk_of S = [] -> exists c u, l = c :: u /\ c <> x00) -> render_start S ++ l = b :: t ->
  b <> x00 /\ (b = x3c -> exists c u, t = c :: u /\ c <> x00).
Proof.
  intros W1 HB E. destruct S as [j|w|dd]; cbn [render_start wf_start junk_of] in *.
  - cbn in E. injection E as <- <-. split; [discriminate|]. intros _. destruct W1 as (c & u & -> & J). destruct j as [|q j]; [apply HB; reflexivity|].
    cbn [app]. eexists _, _. split; [reflexivity|]. destruct j as [|? [|? [|? j]]]; cbn [junk_then] in J; destruct J as (-> & _); discriminate.
  - destruct W1 as (Hw & Nw). destruct w as [|w0 w]; [contradiction|]. cbn in E. injection E as <- _. cbn [blank forallb] in Hw. destruct w0; try discriminate Hw; split; discriminate.
  - destruct W1 as (Wx & _). unfold render_decl in E. cbn in E. injection E as <- <-. split; [discriminate|]. intros _. eexists _, _. split; [reflexivity | discriminate].
Qed.
Lemma doc_first d b t : wf d -> render d = b :: t -> b <> x00 /\ (b = x3c -> exists c u, t = c :: u /\ c <> x00).
Proof.
  intros (W1 & W2 & W3) E. unfold render in E. apply (start_first (d_start d) (d_body d ++ render_epilog (d_epis d) (d_end d))); [apply start_more, W1| |exact E].
  intros J. unfold d_body in *. rewrite J in *. destruct (d_items d) as [|[m g] it]; cbn [wf_body render_body] in *; rewrite first_nil.
  - destruct W2 as (W2 & _). destruct (markup_first _ _ W2) as (c0 & u0 & -> & N). cbn [app]. eexists _, _. split; [reflexivity | exact N].
  - destruct W2 as (W2 & _). destruct (markup_first _ _ W2) as (c0 & u0 & -> & N). cbn [app]. eexists _, _. split; [reflexivity | exact N].
Qed.
Lemma render_cons d : exists b t, render d = b :: t.
Proof.
  unfold render. destruct (d_start d) as [j|w|dd]; cbn [render_start]; [eexists _, _; reflexivity | | unfold render_decl; eexists _, _; reflexivity].
  destruct w; eexists _, _; reflexivity.
Qed.
Lemma decide_small s b t : c_end cf <= zlen doc -> c_end cf < (if c_ns cf then 2^30 else 2^31) -> fresh (c_docOffset cf) s -> 0 <= c_docOffset cf -> c_end cf = c_docOffset cf + c_docLength cf ->
  At (c_docOffset cf) (b :: t) -> b <> x00 -> (b = x3c -> exists c u, t = c :: u /\ c <> x00) -> decideEncoding cf s = ROk tt s.
Proof.
  clear HE HD HN. intros HE HS F Ho HL H N0 N1. assert (X : s_off s = c_docOffset cf /\ s_enc s = 0 /\ s_inc s = 1 /\ s_single s = true).
  { destruct F as (? & ? & ? & ? & ? & ? & ? & ? & ? & -> & _). repeat split. }
  destruct X as (Xo & Xe & Xi & Xs). pose proof (decide_spec cf s Ho Xo Xe Xi Xs) as D. rewrite Xo in D.
  pose proof (At_cons _ _ _ H) as (Z0 & _ & H1).
   destruct (decideEncoding cf s) as [[] s'|e s'|w|].
    - destruct D as (_ & _ & [(-> & _)|[(_ & B)|(_ & B)]]); [reflexivity | exfalso | exfalso].
      + specialize (B 0 ltac:(vm_compute; split; [discriminate | reflexivity])). rewrite Z.add_0_r, Z0 in B. injection B as ->. contradiction.
      + pose proof (B 0 ltac:(vm_compute; split; [discriminate | reflexivity])) as B0. rewrite Z.add_0_r, Z0 in B0. injection B0 as ->.
        pose proof (B 1 ltac:(vm_compute; split; [discriminate | reflexivity])) as B1. destruct (N1 eq_refl) as (c & u & -> & Nc). apply At_cons in H1. destruct H1 as (Z1 & _). rewrite Z1 in B1. injection B1 as ->. contradiction.
    - exfalso. destruct D as (sc & sn & _ & [(_ & _ & X & _)|(m & _ & X)]); [congruence|]. lia.
    - exfalso. destruct D as (_ & (p & q & Nq & Epq & B & L)). apply At_len in H. rewrite zlen_cons in H. pose proof (zlen_nonneg t) as Lt.
      destruct p as [|p0 p]; [rewrite zl0 in L; lia|]. pose proof (B 0 ltac:(rewrite zlen_cons; pose proof (zlen_nonneg p); lia)) as B0. rewrite Z.add_0_r, Z0, znth_cons0 in B0. injection B0 as <-.
      destruct Epq as [Epq|Epq]; cbn [app] in Epq; unfold sigBE, sigLE in Epq; injection Epq as -> Epq; [contradiction|].
      destruct (N1 eq_refl) as (c & u & -> & Nc). apply At_cons in H1. destruct H1 as (Z1 & L1 & _). destruct p as [|p1 p]; [rewrite zlen_cons, zl0 in L; lia|].
      pose proof (B 1 ltac:(rewrite !zlen_cons; pose proof (zlen_nonneg p); lia)) as B1. rewrite Z1 in B1. cbn [app] in Epq. injection Epq as -> _. rewrite znth_consS in B1 by lia. change (1 - 1) with 0 in B1. rewrite znth_cons0 in B1. injection B1 as ->. contradiction.
    - contradiction.
Qed.
Lemma decide_plain s b t : c_end cf <= zlen doc -> fresh (c_docOffset cf) s -> 0 <= c_docOffset cf -> c_end cf = c_docOffset cf + c_docLength cf ->
  At (c_docOffset cf) (b :: t) -> b <> x00 -> (b = x3c -> exists c u, t = c :: u /\ c <> x00) -> decideEncoding cf s = ROk tt s.
Proof. clear HE. intros L. apply decide_small; [exact L|]. rewrite HN. lia. Qed.
Lemma parse_ok s d : fresh (c_docOffset cf) s -> repr (vtdExp (c_docLength cf)) (s_vtd s) [] -> 0 <= c_docOffset cf -> c_end cf = c_docOffset cf + c_docLength cf ->
  At (c_docOffset cf) (render d) -> wf d -> parse cf s = RDiverge \/ exists s', parse cf s = ROk tt s' /\ Final (tokens (c_docOffset cf) d) s'.
Proof.
  intros F FV Ho HL H W. destruct (render_cons d) as (b & t & E). destruct (doc_first d b t W E) as (N0 & N1). pose proof H as H0. rewrite E in H0.
  pose proof (decide_plain s b t ltac:(lia) F Ho HL H0 N0 N1) as E1.
  unfold parse. rewrite (bind_ok _ _ _ _ _ E1), bind_get. destruct (fresh_dec s _ F FV Ho H) as (s1 & E2 & D1). change (s_depth s) with (s_depth s). rewrite (bind_ok _ _ _ _ _ E2).
  apply (loop_ok _ _ _ _ _ _ D1 W).
Qed.
Lemma parse_inv s sf : fresh (c_docOffset cf) s -> repr (vtdExp (c_docLength cf)) (s_vtd s) [] -> 0 <= c_docOffset cf <= zlen doc -> ~ utf16_sig cf -> parse cf s = ROk tt sf -> exists d, At (c_docOffset cf) (render d) /\ wf d.
Proof.
  intros F FV Ho NS K. assert (X : s_off s = c_docOffset cf /\ s_enc s = 0 /\ s_inc s = 1 /\ s_single s = true).
  { destruct F as (? & ? & ? & ? & ? & ? & ? & ? & ? & -> & _). repeat split. }
  destruct X as (Xo & Xe & Xi & Xs). pose proof (decide_spec cf s ltac:(lia) Xo Xe Xi Xs) as D. rewrite Xo in D. unfold parse in K. apply bind_inv in K. destruct K as ([] & s1 & K1 & K). rewrite K1 in D.
  destruct D as (_ & _ & [(-> & _)|[(_ & B)|(_ & B)]]); [|elim NS; left; exact B | elim NS; right; exact B].
  destruct (At_exists (c_docOffset cf) Ho) as (l & H). destruct (fresh_dec s _ F FV ltac:(lia) H) as (s2 & E2 & D2). rewrite bind_get in K. change (s_depth s) with (s_depth s) in K. rewrite (bind_ok _ _ _ _ _ E2) in K.
  destruct (loop_inv' _ _ _ _ _ _ _ D2 K) as (d & -> & W). exists d. auto.
Qed.
End Main.

(** ** NewVtdParser and Parse *)
(** The options make Parse read [doc] from position [off] to the end of the slice,
    without namespace awareness. *)
Definition reads_all (opts : list popt) (doc : list byte) (off : Z) : Prop :=
  Forall go_value opts /\ ns_of opts = false /\ 0 <= off < zlen doc /\ window_of opts = (Some doc, off, zlen doc - off).
(** The page size of the token buffer *)
Lemma new_vtd opts cf s : newVtdParser opts = Ok (cf, s) -> repr (vtdExp (c_docLength cf)) (s_vtd s) [].
Proof.
  unfold newVtdParser. destruct (k_doc (applyPOpts opts)) as [doc|]; [|discriminate]. destruct (zlen doc =? 0); [discriminate|]. destruct (_ <? 0); [discriminate|]. destruct (_ || _); [discriminate|].
  unfold parserInit. destruct (newIntBuf [6]) as [ns1|e|w]; [|discriminate..]. cbn [obind]. destruct (newLongBuf [6]) as [ns2|e|w]; [|discriminate..]. cbn [obind].
  destruct (newUtf8Reader _ _ _); [|discriminate..]. cbn [obind]. destruct (newLongBuf_ok _ (vtdExp_range (k_length (applyPOpts opts)))) as (vtd & -> & Rv). cbn [obind].
  repeat (match goal with |- obind ?x _ = _ -> _ => destruct x end; [|discriminate..]; cbn [obind]). intros X. injection X as <- <-. exact Rv.
Qed.
Lemma reads_new opts doc off : reads_all opts doc off ->
  exists cf s, newVtdParser opts = Ok (cf, s) /\ c_doc cf = doc /\ c_docOffset cf = off /\ c_docLength cf = zlen doc - off /\ c_end cf = zlen doc /\
    c_ns cf = false /\ c_shallow cf = shallow_of opts /\ fresh off s /\ repr (vtdExp (c_docLength cf)) (s_vtd s) [].
Proof.
  intros (G & N & Ho & W). pose proof (new_spec opts G) as P. pose proof (new_vtd opts) as V. rewrite W in P. destruct (newVtdParser opts) as [[cf s]|e|w]; [| |contradiction].
  - destruct P as ((Ed & _) & P1 & P2 & P3 & P4 & P5 & P6). cbn [fst snd] in *. injection Ed as ->. exists cf, s. repeat (split; [first [reflexivity | assumption | congruence | lia]|]). apply V; reflexivity.
  - destruct P as (_ & P). elim (P doc). split; [reflexivity|]. split; [intros ->; cbn in Ho; lia|]. lia.
Qed.
(** The result of a parse of [n] bytes from position [off] on that show [d]. *)
Definition result (opts : list popt) (off n : Z) (d : document) (s : pst) : Prop :=
  toArray (s_vtd s) = Some (Ok (map word (tokens off d))) /\ lcIs (if shallow_of opts then lc0 else lc_final (tokens off d)) s /\
  repr (vtdExp n) (s_vtd s) (map word (tokens off d)).
Lemma accept_ok opts doc off d : reads_all opts doc off -> zlen doc < 2^31 -> wf d -> skipn (Z.to_nat off) doc = render d ->
  exists s, runParser opts = Parsed s /\ result opts off (zlen doc - off) d s.
Proof.
  intros R L W E. destruct (reads_new opts doc off R) as (cf & s & EN & E1 & E2 & E3 & E4 & E5 & E6 & F & V). pose proof R as (G & N & Ho & _). subst doc off.
  assert (A : At cf (c_docOffset cf) (render d)) by (split; [lia | exact E]).
  destruct (parse_ok cf E4 L E5 s d F V ltac:(lia) ltac:(lia) A W) as [X|(s' & X & FV & FL)].
  - exfalso. assert (Y : runParser opts = Diverged) by (unfold runParser; rewrite EN, X; reflexivity). pose proof (run_spec opts G) as P. rewrite Y in P. destruct P as (cf' & s' & _ & _ & _ & _ & P & _ & D & _). congruence.
  - exists s'. split; [unfold runParser; rewrite EN, X; reflexivity|]. unfold result. rewrite <- E6. rewrite <- E3.
    split; [|split; [exact FL | exact FV]]. apply (toArray_repr _ _ _ FV).
    unfold zlen at 1. rewrite map_length. fold (zlen (tokens (c_docOffset cf) d)). pose proof (tokens_count (c_docOffset cf) d W). apply At_len in A. lia.
Qed.
Lemma accept_inv opts doc off s : reads_all opts doc off -> runParser opts = Parsed s -> zlen doc < 2^31 /\ exists d, wf d /\ skipn (Z.to_nat off) doc = render d.
Proof.
  intros R K. destruct (reads_new opts doc off R) as (cf & s0 & EN & E1 & E2 & E3 & E4 & E5 & E6 & F & V). pose proof R as (G & N & Ho & _). subst doc off.
  pose proof (run_spec opts G) as P. rewrite K in P. destruct P as (cf' & s' & EN' & _ & _ & _ & _ & _ & _ & NS). rewrite EN in EN'. injection EN' as <- <-.
  unfold runParser in K. rewrite EN in K. destruct (parse cf s0) as [[] s1|e s1|w|] eqn:E; try discriminate K. injection K as <-.
  assert (L : zlen (c_doc cf) < 2^31).
  { unfold parse in E. apply bind_inv in E. destruct E as ([] & s2 & K1 & _).
    assert (X : s_off s0 = c_docOffset cf /\ s_enc s0 = 0 /\ s_inc s0 = 1 /\ s_single s0 = true) by (destruct F as (? & ? & ? & ? & ? & ? & ? & ? & ? & -> & _); repeat split).
    destruct X as (Xo & Xe & Xi & Xs). pose proof (decide_spec cf s0 ltac:(lia) Xo Xe Xi Xs) as D. rewrite K1 in D. rewrite Xo in D. lia. }
  split; [exact L|]. destruct (parse_inv cf E4 L E5 s0 s1 F V ltac:(lia) NS E) as (d & (_ & A) & W). exists d. auto.
Qed.
