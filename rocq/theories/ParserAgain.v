(** Calling Parse again on the same parser. *)
From Verif Require Import Lib XmlChar Buffer BufferProofs Reader ParserState ParserPrim ParserProc ParserMain SpecParse
  ParserWp ParserInv ParserInvNs ParserInvTag ParserInvMain ParserOutcome.

Section Again.
Variable cf : cfg.
Notation doc := (c_doc cf).

(** ** A parser whose reader is at the end *)
(** [keeps m]: [m] does not move the reader, and ends. *)
Definition keeps {A} (m : M A) : Prop := forall s,
  match m s with ROk _ s' | RErr _ s' => s_roff s' = s_roff s | RPanic _ => True | RDiverge => False end.
Lemma keeps_bind {A B} (m : M A) (k : A -> M B) : keeps m -> (forall a, keeps (k a)) -> keeps (bind m k).
Proof.
  intros H K s. unfold bind. specialize (H s). destruct (m s) as [a s'|e s'|w|]; try exact H. specialize (K a s'). destruct (k a s'); try exact K; congruence.
Qed.
Lemma keeps_get {A} (f : pst -> A) : keeps (get f). Proof. intros s. reflexivity. Qed.
Lemma keeps_ret {A} (a : A) : keeps (ret a). Proof. intros s. reflexivity. Qed.
Lemma keeps_fail {A} e : keeps (@fail A e). Proof. intros s. reflexivity. Qed.
Lemma keeps_idx o : keeps (idx cf o).
Proof. intros s. unfold idx. destruct (znth doc o); [reflexivity | exact I]. Qed.
Lemma keeps_matchAt pat : forall o, keeps (matchAt cf o pat).
Proof.
  induction pat as [|c pat IH]; intros o; cbn [matchAt]; [apply keeps_ret|]. apply keeps_bind; [apply keeps_idx|]. intros x. destruct (x =? c); [apply IH | apply keeps_ret].
Qed.
Lemma keeps_decide : keeps (decideEncoding cf).
Proof.
  unfold decideEncoding.
  repeat first [ apply keeps_bind; [|intros ?] | apply keeps_get | apply keeps_ret | apply keeps_fail | apply keeps_idx | apply keeps_matchAt
               | match goal with |- keeps (if ?b then _ else _) => destruct b end | (intros s; reflexivity) ].
Qed.
Lemma keeps_write v : keeps (appendTo s_vtd set_vtd v).
Proof. intros s. unfold appendTo. destruct (bappend _ _) as [b [u|e|w]]; first [reflexivity | exact I]. Qed.
Lemma at_end_fails s : c_end cf <= s_roff s ->
  match parse cf s with ROk _ _ => False | RErr _ s' => s_roff s' = s_roff s | RPanic _ => True | RDiverge => False end.
Proof.
  intros H. unfold parse, bind. pose proof (keeps_decide s) as D. destruct (decideEncoding cf s) as [u s1|e s1|w|] eqn:E; try exact D.
  unfold get, writeVtd. pose proof (keeps_write (mkToken TokDocument 0 0 (s_depth s1)) s1) as W. destruct (appendTo s_vtd set_vtd _ s1) as [u2 s2|e s2|w|]; try exact W; [|congruence].
  unfold fuel. rewrite loop_empty by congruence. congruence.
Qed.

(** ** A successful Parse leaves the reader at the end *)
Hypothesis Hdo : 0 <= c_docOffset cf.
Hypothesis Hend : 0 <= c_end cf <= zlen doc.
Hypothesis Hend31 : c_end cf < 2^31.

Definition ended (s : pst) : Prop := c_end cf <= s_roff s <= zlen doc /\ upTo cf s /\ s_off s = s_roff s /\ s_enc s = 0 /\ s_inc s = 1 /\ s_single s = true.
Lemma ws_ended n : forall s e s', Core cf s -> upTo cf s -> s_off s = s_roff s -> nextCharAfterWsLoop cf n s = RErr e s' -> Core cf s' /\ upTo cf s' /\ s_off s' = s_roff s' /\ c_end cf <= s_roff s'.
Proof.
  induction n as [|n IH]; intros s e s' C U O E; cbn [nextCharAfterWsLoop] in E; [discriminate E|]. unfold bind in E.
  pose proof (k_rascii _ _ C) as Ra. pose proof (k_roff _ _ C) as Ro.
  destruct (Z.leb_spec (c_end cf) (s_roff s)) as [L|L].
  - rewrite nextChar_end in E by exact L. injection E as _ <-. split; [exact C|]. split; [exact U|]. split; [exact O | exact L].
  - assert (exists b, znth doc (s_roff s) = Some b) as [b Eb] by (apply znth_some_iff; destruct C; lia). rewrite (nextChar_at cf s b L Eb Ra) in E. unfold get in E.
    match type of E with (if ?b then _ else _) _ = _ => destruct b end; [|discriminate E].
    refine (IH _ _ _ _ _ _ E); [apply core_adv; first [exact C | lia] | left; change (s_roff s + 1 <= c_end cf); lia | reflexivity].
Qed.
(** [noEof m]: the errors of [m] are not end-of-file errors. *)
Definition noEof {A} (m : M A) : Prop := forall s e s', m s = RErr e s' -> as_eof e = false.
Lemma noEof_bind {A B} (m : M A) (k : A -> M B) : noEof m -> (forall a, noEof (k a)) -> noEof (bind m k).
Proof.
  intros H K s e s' E. unfold bind in E. destruct (m s) as [a s1|e1 s1|w|] eqn:Em; try discriminate E; [exact (K a _ _ _ E)|]. injection E as <- <-. exact (H _ _ _ Em).
Qed.
Lemma noEof_get {A} (f : pst -> A) : noEof (get f). Proof. intros s e s' E. discriminate E. Qed.
Lemma noEof_modify f : noEof (modify f). Proof. intros s e s' E. discriminate E. Qed.
Lemma noEof_ret {A} (a : A) : noEof (ret a). Proof. intros s e s' E. discriminate E. Qed.
Lemma noEof_line o : noEof (fmtCustomLine cf o).
Proof.
  intros s e s' E. unfold fmtCustomLine in E. destruct (s_enc s <? FormatUtf16BE).
  - destruct (lineScan _ _ _ _ _) as [[? ?]|]; discriminate E.
  - destruct (lineScan16 _ _ _ _ _ _) as [[? ?]|]; discriminate E.
Qed.
Lemma noEof_parseErr {A} m : noEof (@parseErr cf A m).
Proof. apply noEof_bind; [apply noEof_bind; [apply noEof_get | intros o; apply noEof_line]|]. intros l s e s' E. injection E as <- _. reflexivity. Qed.
Lemma skip_ok r c : match snd (rdSkipChar r c) with Err _ => False | _ => True end.
Proof. unfold rdSkipChar. destruct (znth _ _); [destruct (_ =? _)|]; exact I. Qed.
Lemma skipSeq_ok l : forall r, match snd (rdSkipCharSeq r l) with Err _ => False | _ => True end.
Proof.
  induction l as [|c l IH]; intros r; cbn [rdSkipCharSeq]; [exact I|]. pose proof (skip_ok r c) as X. destruct (rdSkipChar r c) as [r' [[|]|e|w]]; cbn [snd] in *; try contradiction; try exact I. apply IH.
Qed.
Lemma noEof_skip c : noEof (skipChar cf c).
Proof. intros s e s' E. unfold skipChar in E. pose proof (skip_ok (rdr cf s) c) as X. destruct (rdSkipChar _ _) as [r [b|e'|w]]; try discriminate E. contradiction. Qed.
Lemma noEof_skipSeq l : noEof (skipCharSeq cf l).
Proof. intros s e s' E. unfold skipCharSeq in E. pose proof (skipSeq_ok l (rdr cf s)) as X. destruct (rdSkipCharSeq _ _) as [r [b|e'|w]]; try discriminate E. contradiction. Qed.
Lemma docend_eof s e s' : Inv cf StDocEnd s -> upTo cf s -> processDocEnd cf s = RErr e s' -> as_eof e = true -> Core cf s' /\ upTo cf s' /\ s_off s' = s_roff s' /\ c_end cf <= s_roff s'.
Proof.
  intros (C & D & O) U E A. unfold processDocEnd in E. unfold bind at 1 in E. destruct (nextCharAfterWs cf s) as [u s1|e1 s1|w|] eqn:En; try discriminate E.
  - exfalso. assert (N : as_eof e = false); [|congruence]. revert E.
    match goal with |- ?m s1 = _ -> _ => cut (noEof m); [intros N; apply N|] end.
    repeat first [ apply noEof_parseErr | apply noEof_bind; [|intros ?] | apply noEof_get | apply noEof_ret | apply noEof_modify | apply noEof_parseErr | apply noEof_skip | apply noEof_skipSeq
               | match goal with |- noEof (if ?b then _ else _) => destruct b end ].
  - injection E as -> ->. exact (ws_ended _ _ _ _ C U O En).
Qed.
Lemma finish_keeps s s' : finishUp cf s = ROk tt s' -> s_roff s' = s_roff s /\ s_off s' = s_off s /\ s_enc s' = s_enc s /\ s_inc s' = s_inc s /\ s_single s' = s_single s.
Proof.
  unfold finishUp, bind, get. intros E.
  repeat match type of E with context [if ?b then _ else _] => destruct b end; unfold appendTo, ret in E; try (destruct (bappend _ _) as [b [u|e|w]]; try discriminate E); injection E as <-; repeat split.
Qed.
Lemma loop_ended n : forall ps s s', Inv cf ps s -> (ps = StDocEnd -> upTo cf s) -> parseLoop cf n ps s = ROk tt s' -> ended s'.
Proof.
  induction n as [|n IH]; intros ps s s' I U E; [discriminate E|]. cbn [parseLoop] in E. unfold catch at 1 in E. pose proof (wp_step cf Hdo Hend Hend31 ps s I) as W. unfold wp in W.
  destruct (step cf ps s) as [ps1 s1|e s1|w|] eqn:Es; try discriminate E; [refine (IH _ _ _ (proj1 W) _ E); intros ->; destruct W as (_ & _ & W); destruct (isPiEnd ps); [exact W | left; exact W]|].
  destruct (as_eof e && isDocEnd ps) eqn:B; [|discriminate E]. apply andb_true_iff in B. destruct B as [B1 B2]. destruct ps; try discriminate B2. cbn [step] in Es.
  destruct (docend_eof _ _ _ I (U eq_refl) Es B1) as (C & U' & O & L). unfold catch in E. destruct (finishUp cf s1) as [[] s2|e2 s2|w|] eqn:F; try discriminate E. injection E as <-.
  destruct (finish_keeps _ _ F) as (K1 & K2 & K3 & K4 & K5). unfold ended, upTo. rewrite K1, K2, K3, K4, K5. destruct C. repeat split; first [assumption | lia].
Qed.
End Again.

(** ** Parse after New *)
Lemma parse_ended cf s s' : 0 <= c_docOffset cf -> 0 <= c_end cf <= zlen (c_doc cf) -> c_end cf = c_docOffset cf + c_docLength cf -> fresh (c_docOffset cf) s ->
  parse cf s = ROk tt s' -> ended cf s'.
Proof.
  intros Hdo Hend He F E.
  assert (Ho : s_off s = c_docOffset cf /\ s_roff s = c_docOffset cf /\ s_rascii s = false /\ s_enc s = 0 /\ s_inc s = 1 /\ s_single s = true).
  { destruct F as (? & ? & ? & ? & ? & ? & ? & ? & ? & -> & _). repeat split. }
  destruct Ho as (Ho & Hr & Ha & Hn & Hi & Hsi). pose proof (fresh_bufs _ _ F) as B.
  pose proof (decide_spec cf s Hdo Ho Hn Hi Hsi) as D. unfold parse in E. rewrite bindE in E.
  destruct (decideEncoding cf s) as [u s1|e s1|w|]; try discriminate E. rewrite Ho in D. destruct D as (D1 & D2 & D3).
  rewrite bindE in E. unfold get at 1 in E. cbv beta iota in E. rewrite bindE in E. unfold writeVtd in E.
  assert (B1 : bufsOk s1) by (destruct D3 as [(-> & _)|[(-> & _)|(-> & _)]]; exact B).
  match type of E with context [appendTo s_vtd set_vtd ?v s1] => destruct (appendVtd v s1 (proj1 B1)) as (b & Eb & Lb) end.
  rewrite Eb in E.
  destruct (Z.ltb_spec (c_docOffset cf) (c_end cf)) as [L|L].
  - destruct D3 as [(-> & (b0 & Hb0 & Hnz) & HnLE)|[(-> & Hsig)|(-> & Hsig)]].
    + assert (C : Core cf s).
      { destruct cf as [d o ln en ns sh]. cbn [c_docOffset c_end c_doc c_docLength] in *. subst en. apply fresh_core; [lia..|exact F]. }
      apply (loop_ended cf Hdo Hend ltac:(lia) (fuel cf) StDocStart (set_vtd b s) _); [|discriminate|exact E].
      assert (Hd : s_depth s = -1) by (destruct F as (? & ? & ? & ? & ? & ? & ? & ? & ? & -> & _); reflexivity).
      split; [core | psimp; lia].
    + apply sigBE_0 in Hsig as H0.
      destruct (loop_be cf (length (c_doc cf)) (set_vtd b (set_single false (set_inc 2 (set_enc FormatUtf16BE s)))) Ho Hr Ha L eq_refl H0)
        as (m & c & s'' & E' & _). unfold fuel in E. rewrite E' in E. discriminate E.
    + destruct (sigLE_0 _ _ Hsig) as [H0 H1].
      destruct (loop_le cf (length (c_doc cf)) (set_vtd b (set_single false (set_inc 2 (set_enc FormatUtf16LE s)))) Ho Hr Ha L eq_refl H0 H1)
        as (e & s'' & E' & _). unfold fuel in E. rewrite E' in E. discriminate E.
  - unfold fuel in E. rewrite loop_empty in E; [discriminate E|].
    destruct D3 as [(-> & _)|[(-> & _)|(-> & _)]]; psimp; lia.
Qed.
