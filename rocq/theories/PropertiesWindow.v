(** Windows: what the bytes around the window can change. *)
From Verif Require Import Lib XmlChar Buffer BufferProofs Reader ParserState ParserPrim ParserProc ParserMain SpecParse SpecChar SpecDoc SpecWindow SpecLoc SpecToken ParserWp ParserInv ParserInvMain ParserOutcome PropertiesParse DocMain PropertiesQuirks PropertiesDoc PropertiesRel DocShow DocCut.

(** ** C90: only the bytes up to the end of the window matter, unless Parse panics
    on the buffer cut off there. *)
Theorem C90_cut_off : forall o1 o2 buf off len, Forall go_value o1 -> Forall go_value o2 ->
  window_of o1 = (Some buf, off, len) -> window_of o2 = (Some (firstn (Z.to_nat (off + len)) buf), off, len) ->
  ns_of o1 = ns_of o2 -> shallow_of o1 = shallow_of o2 -> 0 <= off -> 0 < len -> off + len <= zlen buf ->
  runParser o1 = runParser o2 \/ ran_over (runParser o2).
Proof. exact cut_run. Qed.
Print Assumptions C90_cut_off.
(** '<a><b></a>' is rejected, whatever follows it in the buffer. *)
Example C90_example : exists e s, runParser [OCustom (Some (bytes_of "x<a><b></a>")) 1 10] = Rejected e s /\
  forall rest, zlen rest < 2^32 -> runParser [OCustom (Some (bytes_of "x<a><b></a>" ++ rest)) 1 10] = Rejected e s.
Proof.
  eexists _, _. split; [vm_compute; reflexivity|]. intros rest L. pose proof (zlen_nonneg rest).
  destruct (C90_cut_off [OCustom (Some (bytes_of "x<a><b></a>" ++ rest)) 1 10] [OCustom (Some (bytes_of "x<a><b></a>")) 1 10] (bytes_of "x<a><b></a>" ++ rest) 1 10) as [E|E];
    try reflexivity; try lia.
  - repeat constructor; try lia. intros l [= <-]. rewrite !zlen_cons. lia.
  - repeat constructor; try lia. intros l [= <-]. reflexivity.
  - rewrite zlen_app. change (zlen (bytes_of "x<a><b></a>")) with 11. lia.
  - rewrite E. vm_compute. reflexivity.
  - exfalso. revert E. vm_compute. intros [X|[X|X]]; discriminate X.
Qed.

(** ** C47: the tokens of a document inside a buffer are those of the document
    alone, with the offsets shifted. *)
Definition shift (k : Z) (t : tok) : tok := Tok (t_type t) (t_off t + k) (t_len t) (t_depth t).
Lemma shift_word k t : 0 <= t_type t -> 0 <= t_off t < 2^32 -> 0 <= t_off t + k < 2^32 -> word (shift k t) = word t + k.
Proof.
  intros H0 H1 H2. unfold word, shift. cbn [t_type t_off t_len t_depth]. destruct (t_len t <? 0); [lia|]. cbv zeta.
  set (h := t_type t * 2^60 + t_depth t mod 2^8 * 2^52 + t_len t * 2^32). assert (E : h = (t_type t * 2^28 + t_depth t mod 2^8 * 2^20 + t_len t) * 2^32) by (subst h; ring).
  set (u := t_type t * 2^28 + t_depth t mod 2^8 * 2^20 + t_len t) in E. clearbody u h. subst h. destruct (Z.ltb_spec (u * 2^32 + t_off t) (2^63)), (Z.ltb_spec (u * 2^32 + (t_off t + k)) (2^63)); lia.
Qed.
Lemma shift_attrs k d l : forall p, attrs_toks (p + k) d l = map (shift k) (attrs_toks p d l).
Proof.
  induction l as [|a l IH]; intros p; [reflexivity|]. cbn [attrs_toks]. rewrite map_app, <- IH. replace (p + k + zlen (render_attr a)) with (p + zlen (render_attr a) + k) by lia. f_equal. unfold attr_toks, shift. cbn [map t_type t_off t_len t_depth]. repeat (f_equal; try lia).
Qed.
Lemma shift_text k ty o n d : n <= max_token -> text_toks ty (o + k) n d = map (shift k) (text_toks ty o n d).
Proof. intros H. unfold text_toks. destruct (Z.leb_spec n max_token); [reflexivity | lia]. Qed.
Ltac shift_tok := unfold shift; cbn [map t_type t_off t_len t_depth]; repeat (f_equal; try lia).
Lemma shift_markup k j d m : forall p, zlen (render_markup m) <= max_token -> markup_toks j (p + k) d m = map (shift k) (markup_toks j p d m).
Proof.
  intros p H. destruct m as [n atts t e|n w|x|x|n v|x]; cbn [markup_toks render_markup] in *.
  - cbn [map]. apply (f_equal2 cons); [shift_tok|]. rewrite <- shift_attrs. replace (p + k + zlen n) with (p + zlen n + k) by lia. reflexivity.
  - reflexivity.
  - rewrite !zlen_app in H. rewrite <- shift_text by (change (zlen (lit "!--")) with 3 in H; pose proof (zlen_nonneg (lit "-->")); lia). f_equal. lia.
  - rewrite !zlen_app in H. rewrite <- shift_text by (change (zlen (lit "![CDATA[")) with 8 in H; pose proof (zlen_nonneg (lit "]>")); lia). f_equal. lia.
  - destruct v as [(b, x)|]; shift_tok.
  - shift_tok.
Qed.
Lemma shift_body k l : forall j p st f, zlen (render_body j l f) <= max_token -> body_toks j (p + k) st l f = map (shift k) (body_toks j p st l f).
Proof.
  induction l as [|(m, g) l IH]; intros j p st f H; cbn [body_toks render_body] in *; unfold render_first in *.
  - rewrite zlen_app in H. pose proof (zlen_nonneg (lead j f)). rewrite <- shift_markup by lia. replace (p + k + zlen (lead j f)) with (p + zlen (lead j f) + k) by lia. reflexivity.
  - rewrite !zlen_app in H. pose proof (zlen_nonneg (lead j m)). pose proof (zlen_nonneg (render_markup m)). pose proof (zlen_nonneg (render_gap g)). pose proof (zlen_nonneg (render_body [] l f)).
    rewrite !map_app, <- IH by lia. rewrite <- shift_markup by lia. f_equal; [f_equal; lia|]. f_equal; [|f_equal; lia].
    destruct g as [x|w r]; cbn [gap_toks render_gap] in *; [|reflexivity]. destruct (blank x && _); [reflexivity|]. rewrite zlen_app in H. change (zlen (lit "<")) with 1 in H.
    rewrite <- shift_text by lia. f_equal. lia.
Qed.
Lemma shift_epilog k l : forall p, epilog_toks (p + k) l = map (shift k) (epilog_toks p l).
Proof.
  induction l as [|e l IH]; intros p; [reflexivity|]. cbn [epilog_toks]. rewrite map_app, <- IH. replace (p + k + zlen (render_epi e)) with (p + zlen (render_epi e) + k) by lia. f_equal. unfold epi_toks. destruct (p_value e) as [(b, x)|]; shift_tok.
Qed.
Lemma shift_start k p s : start_toks (p + k) s = map (shift k) (start_toks p s).
Proof.
  destruct s as [j|w|d]; try reflexivity. cbn [start_toks]. unfold decl_toks. cbn [map]. apply (f_equal2 cons); [shift_tok|]. apply (f_equal2 cons); [shift_tok|].
  destruct (d_rest d) as [((w, e), a)|]; [|reflexivity]. rewrite map_app. apply (f_equal2 (@app tok)); [destruct e | destruct a]; unfold enc_toks, sta_toks; shift_tok.
Qed.
Lemma shift_tokens k p d : zlen (render d) <= max_token -> tokens (p + k) d = hd (Tok 13 0 0 (-1)) (tokens p d) :: map (shift k) (tl (tokens p d)).
Proof.
  intros H. unfold tokens. cbv zeta. cbn [hd tl]. f_equal. rewrite !map_app. unfold render in H. rewrite !zlen_app in H.
  pose proof (zlen_nonneg (render_start (d_start d))). pose proof (zlen_nonneg (render_epilog (d_epis d) (d_end d))).
  rewrite <- shift_start, <- shift_body, <- shift_epilog by (unfold d_body in H; lia). f_equal. f_equal; f_equal; lia.
Qed.

(** The tokens lie inside the document. *)
Definition inside (p n : Z) (t : tok) : Prop := 0 <= t_type t /\ p <= t_off t <= p + n.
Lemma inside_wider p n p' n' l : p' <= p -> p + n <= p' + n' -> Forall (inside p n) l -> Forall (inside p' n') l.
Proof. intros H1 H2. apply Forall_impl. intros t (A & B). split; [exact A | lia]. Qed.
Ltac each tac := repeat first [apply Forall_nil | apply Forall_cons; [split; cbn [t_type t_off]; tac|]].
Lemma inside_text p n ty o len d : 0 <= ty -> len <= max_token -> p <= o <= p + n -> Forall (inside p n) (text_toks ty o len d).
Proof. intros Ht H Ho. unfold text_toks. destruct (Z.leb_spec len max_token); [|lia]. constructor; [split; [exact Ht | exact Ho] | constructor]. Qed.
Lemma inside_attrs d l : forall p, Forall (inside p (zlen (render_attrs l))) (attrs_toks p d l).
Proof.
  induction l as [|a l IH]; intros p; [constructor|]. cbn [attrs_toks]. unfold render_attrs. cbn [map concat]. fold (render_attrs l). apply Forall_app. split.
  - unfold attr_toks, render_attr. rewrite !zlen_app. change (zlen [x3d]) with 1. change (zlen [a_quote a]) with 1. pose proof (zlen_nonneg (a_ws a)). pose proof (zlen_nonneg (a_name a)). pose proof (zlen_nonneg (a_eq1 a)). pose proof (zlen_nonneg (a_eq2 a)). pose proof (zlen_nonneg (a_value a)). pose proof (zlen_nonneg (render_attrs l)).
    each ltac:(first [lia | destruct (ns_name _); lia]).
  - apply (inside_wider (p + zlen (render_attr a)) (zlen (render_attrs l))); [pose proof (zlen_nonneg (render_attr a)); lia | rewrite zlen_app; lia | apply IH].
Qed.
Lemma inside_markup j d m p : zlen (render_markup m) <= max_token -> Forall (inside p (zlen (render_markup m))) (markup_toks j p d m).
Proof.
  intros H. destruct m as [n atts t e|n w|x|x|n v|x]; cbn [markup_toks].
  - constructor; [split; cbn [t_type t_off]; [lia|]; pose proof (zlen_nonneg (render_markup (MStart n atts t e))); lia|]. cbn [render_markup] in *. apply (inside_wider (p + zlen n) (zlen (render_attrs atts))); [pose proof (zlen_nonneg n); lia | | apply inside_attrs].
    rewrite !zlen_app. pose proof (zlen_nonneg t). pose proof (zlen_nonneg (if e then lit "/>" else lit ">")). lia.
  - constructor.
  - cbn [render_markup] in *. rewrite !zlen_app in *. change (zlen (lit "!--")) with 3 in *. change (zlen (lit "-->")) with 3 in *. pose proof (zlen_nonneg x). apply inside_text; lia.
  - cbn [render_markup] in *. rewrite !zlen_app in *. change (zlen (lit "![CDATA[")) with 8 in *. change (zlen (lit "]>")) with 2 in *. pose proof (zlen_nonneg x). apply inside_text; lia.
  - destruct v as [(b, x)|]; cbn [render_markup] in *; rewrite !zlen_app in *; change (zlen (lit "?")) with 1 in *; change (zlen (lit "?>")) with 2 in *; pose proof (zlen_nonneg n).
    + pose proof (zlen_nonneg x). change (zlen [b]) with 1 in *. each lia.
    + each lia.
  - cbn [render_markup] in *. rewrite !zlen_app in *. change (zlen (lit "!DDOCTYPE")) with 9 in *. change (zlen (lit ">")) with 1 in *. pose proof (zlen_nonneg x). each lia.
Qed.
Lemma inside_body l : forall j p st f, zlen (render_body j l f) <= max_token -> Forall (inside p (zlen (render_body j l f))) (body_toks j p st l f).
Proof.
  induction l as [|(m, g) l IH]; intros j p st f H; cbn [body_toks render_body] in *; unfold render_first in *.
  - rewrite zlen_app in *. pose proof (zlen_nonneg (lead j f)). eapply inside_wider; [| |apply inside_markup]; lia.
  - rewrite !zlen_app in *. pose proof (zlen_nonneg (lead j m)). pose proof (zlen_nonneg (render_markup m)). pose proof (zlen_nonneg (render_gap g)). pose proof (zlen_nonneg (render_body [] l f)).
    apply Forall_app. split; [eapply inside_wider; [| |apply inside_markup]; lia|]. apply Forall_app. split.
    + destruct g as [x|w r]; cbn [gap_toks render_gap] in *; [|constructor]. rewrite zlen_app in *. change (zlen (lit "<")) with 1 in *. pose proof (zlen_nonneg x). destruct (blank x && _); [constructor|]. apply inside_text; lia.
    + eapply inside_wider; [| |apply IH]; lia.
Qed.
Lemma inside_epilog l w : forall p, Forall (inside p (zlen (render_epilog l w))) (epilog_toks p l).
Proof.
  induction l as [|e l IH]; intros p; [constructor|]. cbn [epilog_toks render_epilog]. rewrite zlen_app. pose proof (zlen_nonneg (render_epilog l w)). pose proof (zlen_nonneg (render_epi e)). apply Forall_app. split; [|eapply inside_wider; [| |apply IH]; lia].
  unfold epi_toks, render_epi in *. rewrite !zlen_app in *. pose proof (zlen_nonneg (p_ws e)). pose proof (zlen_nonneg (p_target e)). change (zlen (lit "<?")) with 2 in *. destruct (p_value e) as [(b, x)|].
  - rewrite !zlen_app in *. change (zlen [b]) with 1 in *. pose proof (zlen_nonneg x). change (zlen (lit "?>")) with 2 in *. each lia.
  - change (zlen (lit "?")) with 1 in *. each lia.
Qed.
Lemma inside_start p s b : wf_start s b -> Forall (inside p (zlen (render_start s))) (start_toks p s).
Proof.
  destruct s as [j|w|d]; [constructor | constructor|]. cbn [start_toks render_start wf_start]. unfold decl_toks, render_decl. intros (X & _).
  assert (L : zlen (d_xml d) = 3) by (destruct (d_xml d) as [|? [|? [|? [|? ?]]]]; cbn [xml_like] in X; try contradiction; reflexivity).
  rewrite !zlen_app, L. change (zlen (lit "<?")) with 2. change (zlen (lit "version")) with 7. change (zlen (lit "=")) with 1. change (zlen [d_quote d]) with 1. change (zlen (lit "1.")) with 2. change (zlen [d_minor d]) with 1. change (zlen (lit "?>")) with 2. change (zlen (lit "<")) with 1.
  pose proof (zlen_nonneg (d_ws d)). pose proof (zlen_nonneg (d_eq1 d)). pose proof (zlen_nonneg (d_eq2 d)). pose proof (zlen_nonneg (d_tail d)). pose proof (zlen_nonneg (render_rest (d_rest d))).
  apply Forall_cons; [split; cbn [t_type t_off]; lia|]. apply Forall_cons; [split; cbn [t_type t_off]; lia|]. destruct (d_rest d) as [((w, e), a)|]; [|constructor]. cbn [render_rest] in *. rewrite !zlen_app in *.
  pose proof (zlen_nonneg w). pose proof (zlen_nonneg (render_opt render_encoding e)). pose proof (zlen_nonneg (render_opt render_standalone a)). apply Forall_app. split.
  - destruct e as [e|]; [|constructor]. cbn [render_opt] in *. unfold enc_toks, render_encoding in *. rewrite !zlen_app in *. change (zlen (lit "encoding")) with 8 in *. change (zlen (lit "=")) with 1 in *. change (zlen [e_q1 e]) with 1 in *.
    pose proof (zlen_nonneg (e_eq1 e)). pose proof (zlen_nonneg (e_eq2 e)). pose proof (zlen_nonneg (e_value e)). pose proof (zlen_nonneg [e_q2 e]). pose proof (zlen_nonneg (e_tail e)). each lia.
  - destruct a as [a|]; [|constructor]. cbn [render_opt] in *. unfold sta_toks, render_standalone in *. rewrite !zlen_app in *. change (zlen (lit "standalone")) with 10 in *. change (zlen (lit "=")) with 1 in *. change (zlen [s_q1 a]) with 1 in *.
    pose proof (zlen_nonneg (s_eq1 a)). pose proof (zlen_nonneg (s_eq2 a)). pose proof (zlen_nonneg (sta_value a)). pose proof (zlen_nonneg [s_q2 a]). pose proof (zlen_nonneg (s_tail a)). each lia.
Qed.
Lemma inside_tokens p d : wf d -> zlen (render d) <= max_token -> Forall (inside p (zlen (render d))) (tl (tokens p d)).
Proof.
  intros (W & _) H. unfold tokens. cbv zeta. cbn [tl]. unfold render in *. rewrite !zlen_app in *. pose proof (zlen_nonneg (render_start (d_start d))). pose proof (zlen_nonneg (d_body d)). pose proof (zlen_nonneg (render_epilog (d_epis d) (d_end d))).
  apply Forall_app. split; [eapply (inside_wider p); [| |apply (inside_start _ _ _ W)]; lia|]. apply Forall_app. split.
  - unfold d_body in *. eapply inside_wider; [| |apply inside_body]; lia.
  - eapply inside_wider; [| |apply (inside_epilog _ (d_end d))]; lia.
Qed.

(** A document of less than 2^20 bytes that is accepted on its own is accepted
    between any bytes [before] and [rest], and its tokens are those of the document
    alone, moved by the length of [before]. *)
Theorem C47_window_partial : forall opts before w rest, Forall go_value opts -> ns_of opts = false ->
  window_of opts = (Some (before ++ w ++ rest), zlen before, zlen w) -> zlen w < 2^20 -> zlen (before ++ w) < 2^31 ->
  forall s, runParser [OXmlDoc (Some w)] = Parsed s ->
  exists s' t ts, runParser opts = Parsed s' /\ exports s (t :: ts) /\ exports s' (t :: map (Z.add (zlen before)) ts).
Proof.
  intros opts before w rest F N W Lw L s E. pose proof (zlen_nonneg before). rewrite zlen_app in L.
  assert (NE : w <> []) by (intros ->; vm_compute in E; discriminate E).
  assert (0 < zlen w) by (destruct w; [contradiction | rewrite zlen_cons; pose proof (zlen_nonneg w); lia]).
  destruct (accepted _ _ _ _ _ (reads_scans _ _ _ (reads_all_doc w NE ltac:(lia))) E) as (_ & d & Wd & Ed & H1 & _). apply shows_all in Ed. symmetry in Ed. change (window w 0) with w in Ed.
  assert (R : reads opts (before ++ w) (zlen before)).
  { split; [exact F|]. split; [exact N|]. rewrite zlen_app. split; [lia|]. exists rest. rewrite <- app_assoc, W. f_equal. lia. }
  assert (Ew : window (before ++ w) (zlen before) = w) by (unfold window, zlen; rewrite Nat2Z.id, skipn_app, skipn_all, Nat.sub_diag; reflexivity).
  destruct (C85_tokens_exact opts (before ++ w) (zlen before) d R ltac:(rewrite zlen_app; lia) Wd ltac:(congruence)) as (s' & Es & H2).
  exists s', (word (hd (Tok 13 0 0 (-1)) (tokens 0 d))), (map word (tl (tokens 0 d))). split; [exact Es|].
  assert (LM : zlen (render d) <= max_token) by (rewrite Ed; unfold max_token; lia). split; [exact H1|].
  rewrite <- (Z.add_0_l (zlen before)) in H2 at 1. rewrite (shift_tokens _ _ _ LM) in H2. cbn [map] in H2. rewrite map_map in *.
  replace (map (fun x => zlen before + word x) (tl (tokens 0 d))) with (map (fun x => word (shift (zlen before) x)) (tl (tokens 0 d))); [exact H2|].
  apply map_ext_in. intros t Ht. pose proof (inside_tokens 0 d Wd LM) as I. rewrite Forall_forall in I. destruct (I t Ht) as (I1 & I2). rewrite Ed in I2. rewrite shift_word; lia.
Qed.
Print Assumptions C47_window_partial.
Example C47_example : exists s s' t ts, runParser [OXmlDoc (Some sample_bytes)] = Parsed s /\ exports s (t :: ts) /\ zlen ts = 11 /\
  runParser [OCustom (Some (bytes_of "<x>" ++ sample_bytes ++ bytes_of "?>")) 3 (zlen sample_bytes)] = Parsed s' /\ exports s' (t :: map (Z.add 3) ts).
Proof.
  destruct sample_parsed as (s & E & X & _).
  destruct (C47_window_partial [OCustom (Some (bytes_of "<x>" ++ sample_bytes ++ bytes_of "?>")) 3 (zlen sample_bytes)] (bytes_of "<x>") sample_bytes (bytes_of "?>")) with (s := s) as (s' & t & ts & E' & X1 & X2).
  - constructor; [|constructor]. cbn [go_value]. split; [lia|]. split; [vm_compute; split; [discriminate | reflexivity]|]. intros l [= <-]. vm_compute. reflexivity.
  - reflexivity.
  - reflexivity.
  - vm_compute. reflexivity.
  - vm_compute. reflexivity.
  - exact E.
  - exists s, s', t, ts. split; [exact E|]. split; [exact X1|]. split; [|split; [exact E' | exact X2]].
    unfold exports in *. rewrite X in X1. injection X1 as _ X1. rewrite <- X1. vm_compute. reflexivity.
Qed.

(** ** C84: windows whose end is decided by the byte behind them.  '<a/><?p v?' is
    accepted when '>' follows it, '<a/><?p?' when another byte than '>' follows. *)
Definition pi_behind : document := Doc (SPlain []) [] (MStart (lit "a") [] [] true) [Epi [] (lit "p") (Some (x20, lit "v"))] [].
Definition pi_short : document := Doc (SPlain []) [] (MStart (lit "a") [] [] true) [Epi [] (lit "p") None] [x20].
Lemma window_wf e w : wf_epilog [e] w -> wf (Doc (SPlain []) [] (MStart (lit "a") [] [] true) [e] w).
Proof.
  intros H. split; [exists x61; eexists; split; [reflexivity | discriminate]|]. split; [|exact H]. cbn [d_start d_items d_final junk_of wf_body].
  split; [|split; [exact I | reflexivity]]. split; [exists (lit "a"); split; [reflexivity | apply name_ok; reflexivity]|]. split; [split; vm_compute; discriminate|].
  split; [vm_compute; discriminate|]. repeat split; try constructor. vm_compute. discriminate.
Qed.
Definition win (w r : list byte) : list popt := [OCustom (Some (w ++ r)) 0 (zlen w)].
Lemma win_scans w r : 0 < zlen w -> zlen (w ++ r) < 2^31 -> scans (win w r) w r 0.
Proof.
  intros P L. pose proof (zlen_app w r) as LA. pose proof (zlen_nonneg r). unfold win. split; [constructor; [|constructor]; cbn [go_value]; split; [lia|]; split; [lia|]; intros l [= <-]; lia|].
  split; [discriminate|]. split; [lia|]. split; [right; exact L|]. rewrite Z.sub_0_r. reflexivity.
Qed.
Example C84_window_case : (wf pi_behind /\ shows pi_behind (lit "<a/><?p v?") (lit ">z")) /\ (wf pi_short /\ shows pi_short (lit "<a/><?p?") (lit "z")) /\
  (exists s, runParser (win (lit "<a/><?p v?") (lit ">z")) = Parsed s) /\ (exists s, runParser (win (lit "<a/><?p?") (lit "z")) = Parsed s) /\
  (forall s, runParser (win (lit "<a/><?p v?") (lit "z")) <> Parsed s) /\ (forall s, runParser (win (lit "<a/><?p?") (lit ">z")) <> Parsed s).
Proof.
  assert (N : is_name (lit "p")) by (apply name_ok; reflexivity).
  assert (A : wf pi_behind /\ shows pi_behind (lit "<a/><?p v?") (lit ">z")).
  { split; [apply window_wf | right; left; split; [reflexivity|]; split; [discriminate | eexists; reflexivity]].
    split; [|split; [discriminate | reflexivity]]. split; [reflexivity|]. split; [exact N|]. split; [intros X; exact X|]. split; [vm_compute; discriminate|].
    split; [reflexivity|]. split; [apply chars_ok; reflexivity|]. split; [apply no_sub_ok; reflexivity | vm_compute; discriminate]. }
  assert (B : wf pi_short /\ shows pi_short (lit "<a/><?p?") (lit "z")).
  { split; [apply window_wf | right; right; split; [reflexivity | eexists _, _; split; [reflexivity | discriminate]]].
    split; [|split; [discriminate | reflexivity]]. split; [reflexivity|]. split; [exact N|]. split; [intros X; exact X|]. split; [vm_compute; discriminate | exact I]. }
  split; [exact A|]. split; [exact B|]. split; [|split; [|split; intros s; vm_compute; discriminate]].
  - apply (C84_acceptance_exact _ _ _ 0 (win_scans (lit "<a/><?p v?") (lit ">z") eq_refl eq_refl) eq_refl). split; [reflexivity|]. exists pi_behind. exact A.
  - apply (C84_acceptance_exact _ _ _ 0 (win_scans (lit "<a/><?p?") (lit "z") eq_refl eq_refl) eq_refl). split; [reflexivity|]. exists pi_short. exact B.
Qed.

(** ** C92: of the bytes outside the window, only the one behind it can decide
    whether Parse succeeds; the tokens depend on the place of the window only. *)
Lemma shows_next d w r1 r2 : hd_error r1 = hd_error r2 -> shows d w r1 -> shows d w r2.
Proof.
  intros H [E|[(E & N & t & ->)|(E & b & t & -> & N)]]; [left; exact E | right; left | right; right]; cbn [hd_error] in H; (destruct r2 as [|c u]; [discriminate H|]; injection H as <-).
  - split; [exact E|]. split; [exact N | exists u; reflexivity].
  - split; [exact E|]. eauto.
Qed.
Theorem C92_outside_bytes : forall o1 o2 doc1 doc2 rest1 rest2 off1 off2, scans o1 doc1 rest1 off1 -> scans o2 doc2 rest2 off2 ->
  ns_of o1 = false -> ns_of o2 = false -> zlen doc2 < 2^31 ->
  window doc1 off1 = window doc2 off2 -> hd_error rest1 = hd_error rest2 ->
  forall s1, runParser o1 = Parsed s1 -> exists s2, runParser o2 = Parsed s2 /\
    (off1 = off2 -> exists w, exports s1 w /\ exports s2 w).
Proof.
  intros o1 o2 doc1 doc2 rest1 rest2 off1 off2 R1 R2 N1 N2 L EW EH s1 E. destruct (C85_only_these _ _ _ _ _ R1 E) as (d & W & Sh & X).
  rewrite EW in Sh. destruct (C85_window_tokens o2 doc2 rest2 off2 d R2 N2 L W (shows_next _ _ _ _ EH Sh)) as (s2 & E2 & X2).
  exists s2. split; [exact E2|]. intros ->. eauto.
Qed.
Print Assumptions C92_outside_bytes.
(** The case of C84_window_case in other surroundings *)
Example C92_example : exists s1 s2 w, runParser (win (lit "<a/><?p v?") (lit ">z")) = Parsed s1 /\ runParser (win (lit "<a/><?p v?") (lit "><b c")) = Parsed s2 /\ exports s1 w /\ exports s2 w /\ zlen w = 4.
Proof.
  destruct C84_window_case as (_ & _ & (s1 & E1) & _).
  destruct (C92_outside_bytes _ _ _ _ _ _ _ _ (win_scans (lit "<a/><?p v?") (lit ">z") eq_refl eq_refl) (win_scans (lit "<a/><?p v?") (lit "><b c") eq_refl eq_refl) eq_refl eq_refl eq_refl eq_refl eq_refl s1 E1) as (s2 & E2 & X).
  destruct (X eq_refl) as (w & X1 & X2). exists s1, s2, w. split; [exact E1|]. split; [exact E2|]. split; [exact X1|]. split; [exact X2|].
  vm_compute in E1. injection E1 as <-. vm_compute in X1. injection X1 as <-. reflexivity.
Qed.
