(** Windows that end before the buffer does: from the parts the parser reads to the
    document that the window shows. *)
From Verif Require Import Lib XmlChar Buffer BufferProofs Reader ParserState ParserPrim ParserProc ParserMain
  SpecParse SpecChar SpecDoc SpecWindow ParserWp ParserInv ParserInvMain DocScan DocBase DocGap DocBody DocMain ParserOutcome DocEpilog DocWindow PropertiesParse.

Lemma epilog_app l u v : render_epilog l (u ++ v) = render_epilog l u ++ v.
Proof. induction l as [|e l IH]; cbn [render_epilog]; [reflexivity|]. rewrite IH, app_assoc. reflexivity. Qed.
Lemma epilog_snoc l e w : render_epilog (l ++ [e]) w = render_epilog l [] ++ render_epi e ++ w.
Proof. induction l as [|e0 l IH]; cbn [render_epilog app]; [reflexivity|]. rewrite IH, app_assoc. reflexivity. Qed.
Lemma epi_nonempty e x : render_epi e ++ x <> [].
Proof. destruct e as [[|b u] n v]; unfold render_epi; cbn [p_ws app]; discriminate. Qed.
Lemma epi_last e : exists x, render_epi e = x ++ [match p_value e with None => x3f | Some _ => x3e end].
Proof.
  unfold render_epi. destruct (p_value e) as [[b x]|].
  - exists (p_ws e ++ lit "<?" ++ p_target e ++ [b] ++ x ++ [x3f]). rewrite <- !app_assoc. reflexivity.
  - exists (p_ws e ++ lit "<?" ++ p_target e). rewrite <- !app_assoc. reflexivity.
Qed.
Lemma markup_last j m : closes m -> exists x, render_first j m = x ++ [x3e].
Proof.
  intros C. unfold render_first. destruct m as [n a t [] |n w|x|x|n v|x]; cbn [closes] in C; try contradiction; cbn [lead render_markup app].
  - exists (n ++ render_attrs a ++ t ++ [x2f]). rewrite <- !app_assoc. reflexivity.
  - exists (j ++ lit "/" ++ n ++ w). rewrite <- !app_assoc. reflexivity.
Qed.
Lemma body_last l : forall j st f, wf_body j st l f -> exists x, render_body j l f = x ++ [x3e].
Proof.
  induction l as [|(m, g) l IH]; intros j st f W; cbn [wf_body render_body] in *.
  - apply markup_last, W.
  - destruct W as (_ & _ & _ & W). destruct (IH _ _ _ W) as (x & ->). exists (render_first j m ++ render_gap g ++ x). rewrite <- !app_assoc. reflexivity.
Qed.
Lemma blank_snoc w b : blank (w ++ [b]) = true -> blank w = true /\ space b = true.
Proof. unfold blank. rewrite forallb_app. cbn [forallb]. rewrite andb_true_r. apply andb_prop. Qed.

Lemma epilog_blank l w : wf_epilog l w -> blank w = true.
Proof. induction l as [|e l IH]; cbn [wf_epilog]; [auto|]. intros (_ & _ & H). auto. Qed.
Lemma wfx_blank l w r : wfx l w r -> blank w = true.
Proof. induction l as [|e l IH]; cbn [wfx]; [auto|]. intros (_ & _ & H). auto. Qed.
Lemma wf_wfx l w v r : wf_epilog l (w ++ v) -> (v = [] \/ exists b t, r = b :: t /\ b <> x3e) -> wfx l w r.
Proof.
  intros W V. assert (B : blank w = true) by (apply epilog_blank in W; unfold blank in *; rewrite forallb_app in W; apply andb_prop in W; apply W).
  revert W. induction l as [|e l IH]; cbn [wf_epilog wfx]; [auto|]. intros (He & Hv & W). specialize (IH W). split; [exact He|]. split; [|exact IH]. intros K. specialize (Hv K).
  destruct (render_epilog l w) as [|b0 x0] eqn:E.
  - cbn [app]. destruct V as [-> |V]; [|exact V]. rewrite app_nil_r, E in Hv. contradiction.
  - assert (H : exists b r, render_epilog l (w ++ v) = b :: r /\ b <> x3e) by (apply epilog_head; [exact W | exact Hv]).
    rewrite epilog_app, E in H. destruct H as (b & x & [= <- _] & N). exists b0, (x0 ++ r). auto.
Qed.
Lemma wfx_wf l w r : wfx l w r -> wf_epilog l w \/ (wf_epilog l (w ++ lit " ") /\ exists b t, r = b :: t /\ b <> x3e).
Proof.
  intros W. pose proof (wfx_blank _ _ _ W) as B.
  assert (D : (exists b t, r = b :: t /\ b <> x3e) \/ ~ exists b t, r = b :: t /\ b <> x3e).
  { destruct r as [|b t]; [right; intros (? & ? & [=] & _)|]. destruct (byte_eq_dec b x3e) as [-> |N]; [right; intros (? & ? & [= <- _] & N); contradiction | left; exists b, t; auto]. }
  destruct D as [D|D]; [right; split; [|exact D] | left]; revert W; (induction l as [|e l IH]; cbn [wf_epilog wfx]; [intros _ | intros (He & Hv & W); split; [exact He|]; split; [|exact (IH W)]; intros K]).
  - unfold blank in *. rewrite forallb_app, B. reflexivity.
  - rewrite epilog_app. intros X. apply app_eq_nil in X. destruct X as (_ & X). discriminate X.
  - exact B.
  - intros X. rewrite X in Hv. apply D, Hv, K.
Qed.
Lemma wfx_value l e r : wfx (l ++ [e]) [] r -> p_value e <> None -> wf_epilog (l ++ [e]) [].
Proof.
  intros W V. induction l as [|e0 l IH]; cbn [app wf_epilog wfx] in *.
  - destruct W as (W1 & _ & W2). split; [exact W1|]. split; [intros K; contradiction | reflexivity].
  - destruct W as (W1 & _ & W2). split; [exact W1|]. split; [|exact (IH W2)]. intros _ X. rewrite epilog_snoc in X. apply app_eq_nil in X. destruct X as (_ & X). exact (epi_nonempty _ _ X).
Qed.

(** The lengths of the parts fit the window of length [n]. *)
Definition fit (n : Z) (S : start) (it : list (markup * gap)) (f : markup) (es : list epi) (w : list byte) : Prop :=
  let q := zlen (render_start S) + zlen (render_body (junk_of S) it f) in
  q <= n /\ (q + zlen (render_epilog es w) = n \/
    (es <> [] /\ w = [] /\ q + zlen (render_epilog es w) = n + 1 /\ exists l0 e, es = l0 ++ [e] /\ p_value e <> None)).
Lemma fit_ends cf S it f es w : fit (c_end cf - c_docOffset cf) S it f es w ->
  let q := c_docOffset cf + zlen (render_start S) + zlen (render_body (junk_of S) it f) in q <= c_end cf /\ ends_at cf q es w.
Proof. intros (Lq & [E|(A & B & C & D)]); cbv zeta; (split; [lia|]); unfold ends_at; [left; lia | right; right; repeat split; [assumption..| lia | exact D]]. Qed.
Lemma ends_fit cf S it f es w : let q := c_docOffset cf + zlen (render_start S) + zlen (render_body (junk_of S) it f) in q <= c_end cf -> ends_at cf q es w ->
  fit (c_end cf - c_docOffset cf) S it f es w.
Proof.
  intros q Lq E. subst q. unfold fit. split; [lia|]. destruct E as [E|[(-> & -> & E)|(A & B & C & D)]]; [left; lia | left; cbn [render_epilog]; rewrite zl0; lia|].
  right. repeat split; [assumption..| lia | exact D].
Qed.

Lemma shows_parts d W r : wf d -> shows d W r -> exists w r2, W ++ r = render_start (d_start d) ++ d_body d ++ render_epilog (d_epis d) w ++ r2 /\
  wfx (d_epis d) w r2 /\ fit (zlen W) (d_start d) (d_items d) (d_final d) (d_epis d) w.
Proof.
  intros (W1 & W2 & W3) H. unfold fit. fold (d_body d). destruct (body_last _ _ _ _ W2) as (xb & Eb). fold (d_body d) in Eb.
  destruct H as [-> |[(E & N & t & ->)|(E & b & t & -> & Nb)]].
  - exists (d_end d), r. unfold render. rewrite <- !app_assoc. split; [reflexivity|]. split; [apply (wf_wfx _ _ []); [rewrite app_nil_r; exact W3 | left; reflexivity]|].
    rewrite !zlen_app. pose proof (zlen_nonneg (render_epilog (d_epis d) (d_end d))). split; [lia | left; lia].
  - destruct (exists_last N) as (l0 & e & El). unfold render in E. rewrite El, epilog_snoc in E. pose proof (epilog_blank _ _ W3) as B.
    assert (De : d_end d = []).
    { destruct (d_end d) as [|c u] eqn:Dd; [reflexivity|]. exfalso. destruct (exists_last (l := c :: u) ltac:(discriminate)) as (u' & c' & Eu). rewrite Eu in *.
      apply blank_snoc in B. rewrite !app_assoc in E. apply app_inj_tail in E. destruct E as (_ & <-). destruct B as (_ & B). discriminate B. }
    rewrite De, app_nil_r in E. destruct (epi_last e) as (xe & Ee). assert (V : p_value e <> None).
    { intros K. rewrite K in Ee. rewrite Ee in E. rewrite !app_assoc in E. apply app_inj_tail in E. destruct E as (_ & E). discriminate E. }
    exists [], t. rewrite De in W3.
    assert (EW : W ++ lit ">" = render_start (d_start d) ++ d_body d ++ render_epilog (d_epis d) []) by (rewrite El, epilog_snoc, app_nil_r; exact E).
    split; [change (x3e :: t) with (lit ">" ++ t); rewrite app_assoc, EW, <- !app_assoc; reflexivity|].
    split; [apply (wf_wfx _ [] []); [exact W3 | left; reflexivity]|].
    pose proof (f_equal zlen EW) as LL. rewrite !zlen_app in LL. change (zlen (lit ">")) with 1 in LL.
    assert (0 < zlen (render_epilog (d_epis d) [])).
    { rewrite El, epilog_snoc, zlen_app, zlen_app, Ee, zlen_app. change (zlen [match p_value e with None => x3f | Some _ => x3e end]) with 1. pose proof (zlen_nonneg xe). pose proof (zlen_nonneg (render_epilog l0 [])). pose proof (zlen_nonneg (@nil byte)). lia. }
    split; [lia|]. right. split; [exact N|]. split; [reflexivity|]. split; [lia|]. exists l0, e. auto.
  - assert (De : exists u, d_end d = u ++ [x20]).
    { destruct (d_end d) as [|c u] eqn:Dd.
      - exfalso. unfold render in E. rewrite Dd in E. destruct (d_epis d) as [|e0 l0] eqn:El.
        + cbn [render_epilog] in E. rewrite app_nil_r, Eb, app_assoc in E. apply app_inj_tail in E. destruct E as (_ & E). discriminate E.
        + destruct (exists_last (l := e0 :: l0) ltac:(discriminate)) as (l1 & e & El1). rewrite El1, epilog_snoc, app_nil_r in E. destruct (epi_last e) as (xe & Ee). rewrite Ee, !app_assoc in E.
          apply app_inj_tail in E. destruct E as (_ & E). destruct (p_value e); discriminate E.
      - destruct (exists_last (l := c :: u) ltac:(discriminate)) as (u' & c' & Eu). unfold render in E. rewrite Dd, Eu, epilog_app, !app_assoc in E. apply app_inj_tail in E. destruct E as (_ & <-). exists u'. exact Eu. }
    destruct De as (u & De). unfold render in E. rewrite De, epilog_app, !app_assoc in E. apply app_inj_tail in E. destruct E as (E & _). rewrite <- app_assoc in E.
    exists u, (b :: t). rewrite E, <- !app_assoc. split; [reflexivity|]. rewrite De in W3. split; [apply (wf_wfx _ _ [x20]); [exact W3 | right; exists b, t; auto]|].
    rewrite !zlen_app. pose proof (zlen_nonneg (render_epilog (d_epis d) u)). split; [lia | left; lia].
Qed.
Lemma app_split {A} (a b c d : list A) : a ++ b = c ++ d -> zlen a = zlen c -> a = c /\ b = d.
Proof. intros E L. revert c E L. induction a as [|x a IH]; intros [|y c] E L; cbn [app] in E; rewrite ?zlen_cons, ?zl0 in L; [auto | pose proof (zlen_nonneg c); cbn in L; lia | pose proof (zlen_nonneg a); cbn in L; lia|].
  injection E as -> E. destruct (IH c E) as (-> & ->); [lia | auto]. Qed.
Lemma parts_shows S it f es w r W rest : wf_start S (render_body (junk_of S) it f) -> wf_body (junk_of S) [] it f -> wfx es w r ->
  W ++ rest = render_start S ++ render_body (junk_of S) it f ++ render_epilog es w ++ r -> fit (zlen W) S it f es w ->
  exists w', wf (Doc S it f es w') /\ shows (Doc S it f es w') W rest.
Proof.
  intros W1 W2 W3 E (Lq & F). set (x := render_start S ++ render_body (junk_of S) it f ++ render_epilog es w).
  assert (E' : W ++ rest = x ++ r) by (unfold x; rewrite <- !app_assoc; exact E).
  assert (Lx : zlen x = zlen (render_start S) + zlen (render_body (junk_of S) it f) + zlen (render_epilog es w)) by (unfold x; rewrite !zlen_app; lia).
  destruct F as [F|(_ & -> & F & l0 & e & El & V)].
  - destruct (app_split _ _ _ _ E' ltac:(lia)) as (-> & ->). destruct (wfx_wf _ _ _ W3) as [X|(X & b & t & -> & N)].
    + exists w. split; [split; [exact W1|]; split; [exact W2 | exact X] | left; reflexivity].
    + exists (w ++ lit " "). split; [split; [exact W1|]; split; [exact W2 | exact X]|]. right. right. split; [|exists b, t; auto].
      unfold render, x. cbn [d_start d_body d_items d_final d_epis d_end]. rewrite epilog_app, <- !app_assoc. reflexivity.
  - exists []. subst es. destruct (epi_last e) as (xe & Ee). assert (Ve : match p_value e with None => x3f | Some _ => x3e end = x3e) by (destruct (p_value e); [reflexivity | contradiction]). rewrite Ve in Ee.
    split; [split; [exact W1|]; split; [exact W2 | exact (wfx_value _ _ _ W3 V)]|]. right. left.
    set (y := render_start S ++ render_body (junk_of S) it f ++ render_epilog l0 [] ++ xe).
    assert (Exy : x = y ++ [x3e]) by (unfold x, y; rewrite epilog_snoc, app_nil_r, Ee, <- !app_assoc; reflexivity).
    rewrite Exy in E', Lx. rewrite zlen_app in Lx. change (zlen [x3e]) with 1 in Lx. rewrite <- app_assoc in E'. destruct (app_split _ _ _ _ E' ltac:(lia)) as (-> & ->).
    split; [symmetry; exact Exy|]. split; [cbn [d_epis]; destruct l0; discriminate | exists r; reflexivity].
Qed.

Lemma shows_length d W r : shows d W r -> zlen (render d) <= zlen W + 1.
Proof.
  intros [-> |[(E & _)|(E & _)]]; [lia|..]; apply (f_equal zlen) in E; rewrite zlen_app in E; [change (zlen (lit ">")) with 1 in E | change (zlen (lit " ")) with 1 in E]; lia.
Qed.
Lemma shows_all d W : shows d W [] <-> W = render d.
Proof. split; [|intros H; left; exact H]. intros [H|[(_ & _ & t & [=])|(_ & b & t & [=] & _)]]. exact H. Qed.

(** The options make Parse read, from position [off], up to the end of [doc], without
    namespace awareness; [rest] follows in the buffer. *)
Definition reads_in (opts : list popt) (doc rest : list byte) (off : Z) : Prop :=
  Forall go_value opts /\ ns_of opts = false /\ 0 <= off < zlen doc /\ window_of opts = (Some (doc ++ rest), off, zlen doc - off).
Lemma reads_in_new opts doc rest off : reads_in opts doc rest off ->
  exists cf s, newVtdParser opts = Ok (cf, s) /\ c_doc cf = doc ++ rest /\ c_docOffset cf = off /\ c_docLength cf = zlen doc - off /\ c_end cf = zlen doc /\
    c_ns cf = false /\ c_shallow cf = shallow_of opts /\ fresh off s /\ repr (vtdExp (c_docLength cf)) (s_vtd s) [].
Proof.
  intros (G & N & Ho & W). pose proof (new_spec opts G) as P. pose proof (new_vtd opts) as V. rewrite W in P. pose proof (zlen_app doc rest) as LA. pose proof (zlen_nonneg rest). destruct (newVtdParser opts) as [[cf s]|e|w]; [| |contradiction].
  - destruct P as ((Ed & _) & P1 & P2 & P3 & P4 & P5 & P6). cbn [fst snd] in *. injection Ed as Ed. exists cf, s. repeat (split; [first [reflexivity | assumption | congruence | lia]|]). apply V; reflexivity.
  - destruct P as (_ & P). elim (P (doc ++ rest)). split; [reflexivity|]. split; [intros X; rewrite X in LA; cbn in LA; lia|]. lia.
Qed.
Lemma skip_app off (doc rest : list byte) : 0 <= off < zlen doc -> skipn (Z.to_nat off) (doc ++ rest) = skipn (Z.to_nat off) doc ++ rest /\ zlen (skipn (Z.to_nat off) doc) = zlen doc - off.
Proof.
  intros H. split; [rewrite skipn_app; f_equal; replace (Z.to_nat off - length doc)%nat with O by (unfold zlen in H; lia); reflexivity|].
  unfold zlen in *. rewrite skipn_length. lia.
Qed.

Lemma show_ok opts doc rest off d : reads_in opts doc rest off -> zlen (doc ++ rest) < 2^31 -> wf d -> shows d (skipn (Z.to_nat off) doc) rest ->
  exists s, runParser opts = Parsed s /\ result opts off (zlen doc - off) d s.
Proof.
  intros R L W Sh. destruct (reads_in_new opts doc rest off R) as (cf & s & EN & E1 & E2 & E3 & E4 & E5 & E6 & F & V). pose proof R as (G & N & Ho & _).
  destruct (skip_app off doc rest Ho) as (SA & SL). destruct (shows_parts _ _ _ W Sh) as (w & r2 & EW & Wx & Ft). pose proof W as (W1 & W2 & _).
  pose proof (shows_length _ _ _ Sh) as LS. pose proof (tokens_count off d W) as TC. rewrite SL in *.
  assert (A : At cf off (render_start (d_start d) ++ d_body d ++ render_epilog (d_epis d) w ++ r2)) by (split; [rewrite E1, zlen_app; pose proof (zlen_nonneg rest); lia | rewrite E1, SA; exact EW]).
  replace (zlen doc - off) with (c_end cf - c_docOffset cf) in Ft by lia. apply fit_ends in Ft. destruct Ft as (Lq & Ea). pose proof (zlen_app doc rest) as LA. pose proof (zlen_nonneg rest).
  rewrite <- E2 in A, F.
  destruct (parseIn_ok cf ltac:(lia) ltac:(rewrite E1; lia) ltac:(lia) ltac:(rewrite E1; exact L) E5 s _ _ _ _ _ _ F V A W1 W2 Wx Lq Ea) as [X|(s' & X & FV & FL)].
  - exfalso. assert (Y : runParser opts = Diverged) by (unfold runParser; rewrite EN, X; reflexivity). pose proof (run_spec opts G) as P. rewrite Y in P. destruct P as (cf' & s' & _ & _ & _ & _ & P & _ & D & _). congruence.
  - exists s'. split; [unfold runParser; rewrite EN, X; reflexivity|]. unfold result. rewrite <- E6, <- E3.
    rewrite E2 in FV, FL. change (tokens off (Doc (d_start d) (d_items d) (d_final d) (d_epis d) w)) with (tokens off d) in *.
    split; [|split; [exact FL | exact FV]]. apply (toArray_repr _ _ _ FV).
    unfold zlen at 1. rewrite map_length. fold (zlen (tokens off d)). lia.
Qed.
Lemma show_inv opts doc rest off s : reads_in opts doc rest off -> zlen (doc ++ rest) < 2^31 -> runParser opts = Parsed s ->
  exists d, wf d /\ shows d (skipn (Z.to_nat off) doc) rest.
Proof.
  intros R L K. destruct (reads_in_new opts doc rest off R) as (cf & s0 & EN & E1 & E2 & E3 & E4 & E5 & E6 & F & V). pose proof R as (G & N & Ho & _).
  pose proof (run_spec opts G) as P. rewrite K in P. destruct P as (cf' & s' & EN' & _ & _ & _ & _ & _ & _ & NS). rewrite EN in EN'. injection EN' as <- <-.
  unfold runParser in K. rewrite EN in K. destruct (parse cf s0) as [[] s1|e s1|w|] eqn:E; try discriminate K. injection K as <-.
  destruct (skip_app off doc rest Ho) as (SA & SL). pose proof (zlen_app doc rest) as LA. pose proof (zlen_nonneg rest). rewrite <- E2 in F.
  destruct (parseIn_inv cf ltac:(lia) ltac:(rewrite E1; lia) ltac:(lia) ltac:(rewrite E1; exact L) E5 s0 s1 F V NS E) as (S & it & f & es & w & r & (_ & A) & W1 & W2 & W3 & Lq & Ea).
  pose proof (ends_fit cf _ _ _ _ _ Lq Ea) as Ft. rewrite E1, E2, SA in A. replace (c_end cf - c_docOffset cf) with (zlen (skipn (Z.to_nat off) doc)) in Ft by lia.
  destruct (parts_shows _ _ _ _ _ _ _ _ W1 W2 W3 A Ft) as (w' & X). exists (Doc S it f es w'). exact X.
Qed.
