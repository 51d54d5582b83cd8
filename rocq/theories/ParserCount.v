(** How many tokens Parse writes, in every mode. *)
From Verif Require Import Lib XmlChar Buffer BufferProofs Reader ParserState ParserPrim ParserProc ParserMain SpecParse
  ParserWp ParserInv ParserInvTag ParserInvMain ParserOutcome ParserAgain.

Section Count.
Variable cf : cfg.
Hypothesis Hdo : 0 <= c_docOffset cf.
Hypothesis Hend : 0 <= c_end cf <= zlen (c_doc cf).
Hypothesis H31 : c_end cf < 2^31.

(** [samev m]: [m] writes no token. *)
Definition samev {A} (m : M A) : Prop := forall s, match m s with ROk _ s' | RErr _ s' => s_vtd s' = s_vtd s | _ => True end.
Lemma samev_bind {A B} (m : M A) (k : A -> M B) : samev m -> (forall a, samev (k a)) -> samev (bind m k).
Proof.
  intros H K s. unfold bind. specialize (H s). destruct (m s) as [a s1|e s1|w|]; try exact H.
  specialize (K a s1). destruct (k a s1); congruence || exact I.
Qed.
Lemma samev_get {A} (f : pst -> A) : samev (get f). Proof. intros s. reflexivity. Qed.
Lemma samev_ret {A} (a : A) : samev (ret a). Proof. intros s. reflexivity. Qed.
Lemma samev_diverge {A} : samev (@diverge A). Proof. intros s. exact I. Qed.
Lemma samev_nextChar : samev (nextChar cf).
Proof.
  apply samev_bind; [|intros c s; reflexivity]. intros s. unfold getChar. destruct (rdGetChar (rdr cf s)) as [r [x|x|x]]; first [reflexivity | exact I].
Qed.
Lemma samev_ws : samev (nextCharAfterWs cf).
Proof.
  unfold nextCharAfterWs. generalize (fuel cf). intros n. induction n as [|n IH]; cbn [nextCharAfterWsLoop]; [apply samev_diverge|].
  apply samev_bind; [apply samev_nextChar|]. intros []. apply samev_bind; [apply samev_get|]. intros c. destruct (isSpaceChar c); [exact IH | apply samev_ret].
Qed.
Lemma samev_skip c : samev (skipChar cf c).
Proof. intros s. unfold skipChar. destruct (rdSkipChar _ _) as [r [x|x|x]]; first [reflexivity | exact I]. Qed.
Lemma samev_skipSeq l : samev (skipCharSeq cf l).
Proof. intros s. unfold skipCharSeq. destruct (rdSkipCharSeq _ _) as [r [x|x|x]]; first [reflexivity | exact I]. Qed.
Lemma samev_parseErr {A} m : samev (@parseErr cf A m).
Proof.
  apply samev_bind; [|intros l s; reflexivity]. apply samev_bind; [apply samev_get|]. intros o s. unfold fmtCustomLine.
  destruct (s_enc s <? FormatUtf16BE); [destruct (lineScan _ _ _ _ _) as [[? ?]|] | destruct (lineScan16 _ _ _ _ _ _) as [[? ?]|]]; first [reflexivity | exact I].
Qed.
Lemma samev_markLast : samev markLast. Proof. intros s. reflexivity. Qed.
Lemma samev_docEnd : samev (processDocEnd cf).
Proof.
  unfold processDocEnd.
  repeat first [ apply samev_ws | apply samev_skip | apply samev_skipSeq | apply samev_parseErr | apply samev_markLast | apply samev_get | apply samev_ret
               | apply samev_bind; [|intros ?] | match goal with |- samev (if ?b then _ else _) => destruct b end ].
Qed.
Lemma samev_finish : samev (finishUp cf).
Proof.
  unfold finishUp. apply samev_bind; [apply samev_get|]. intros d.
  repeat match goal with |- samev (if ?b then _ else _) => destruct b end; try apply samev_ret;
    intros s; unfold appendTo; destruct (bappend _ _) as [b [u|e|w]]; first [reflexivity | exact I].
Qed.

Lemma loop_count B n : forall ps s s', Inv cf ps s -> room cf B ps s -> (ps = StDocEnd -> upTo cf s) -> parseLoop cf n ps s = ROk tt s' ->
  b_size (s_vtd s') + 1 <= c_end cf + 1 - c_docOffset cf + B.
Proof.
  induction n as [|n IH]; intros ps s s' I R U E; [discriminate E|]. cbn [parseLoop] in E. unfold catch at 1 in E.
  pose proof (wp_stepR cf Hdo Hend H31 B ps s I R) as W. unfold wp in W.
  destruct (step cf ps s) as [ps1 s1|e s1|w|] eqn:Es; try discriminate E.
  - destruct W as (W & R1). refine (IH _ _ _ (proj1 W) R1 _ E). intros ->. destruct W as (_ & _ & W). destruct (isPiEnd ps); [exact W | left; exact W].
  - destruct (as_eof e && isDocEnd ps) eqn:Q; [|discriminate E]. apply andb_true_iff in Q. destruct Q as [_ Q]. destruct ps; try discriminate Q. cbn [step] in Es.
    pose proof (samev_docEnd s) as V. rewrite Es in V. unfold catch in E. pose proof (samev_finish s1) as V1. destruct (finishUp cf s1) as [[] s2|e2 s2|w|] eqn:F; try discriminate E.
    injection E as <-. rewrite V1, V. cbn [room] in R. specialize (U eq_refl). destruct U as [U|(U & _)]; lia.
Qed.
End Count.

Lemma parse_count cf s s' : 0 <= c_docOffset cf -> 0 <= c_end cf <= zlen (c_doc cf) -> c_end cf = c_docOffset cf + c_docLength cf -> fresh (c_docOffset cf) s ->
  parse cf s = ROk tt s' -> b_size (s_vtd s') <= c_docLength cf + 1 /\ c_end cf < 2^31.
Proof.
  intros Hdo Hend He F E.
  assert (Ho : s_off s = c_docOffset cf /\ s_roff s = c_docOffset cf /\ s_rascii s = false /\ s_enc s = 0 /\ s_inc s = 1 /\ s_single s = true /\ s_depth s = -1 /\ b_size (s_vtd s) = 0).
  { destruct F as (? & ? & ? & ? & ? & ? & ? & ? & ? & -> & (e & R) & _). repeat split. exact (rp_size _ _ _ R). }
  destruct Ho as (Ho & Hr & Ha & Hn & Hi & Hsi & Hd & Hz). pose proof (fresh_bufs _ _ F) as B.
  pose proof (decide_spec cf s Hdo Ho Hn Hi Hsi) as D. unfold parse in E. rewrite bindE in E.
  destruct (decideEncoding cf s) as [u s1|e s1|w|]; try discriminate E. rewrite Ho in D. destruct D as (D1 & D2 & D3). assert (H31 : c_end cf < 2^31) by lia.
  rewrite bindE in E. unfold get at 1 in E. cbv beta iota in E. rewrite bindE in E. unfold writeVtd in E.
  assert (B1 : bufsOk s1) by (destruct D3 as [(-> & _)|[(-> & _)|(-> & _)]]; exact B).
  match type of E with context [appendTo s_vtd set_vtd ?v s1] => pose proof (wp_appendTo cf s_vtd set_vtd v s1 (fun _ s2 => exists b, s2 = set_vtd b s1 /\ lbOk b /\ b_size b = b_size (s_vtd s1) + 1) (proj1 B1)) as W; unfold wp in W;
    destruct (appendTo s_vtd set_vtd v s1) as [u2 s2|e2 s2|w|] end; try discriminate E.
  destruct W as (b & -> & Lb & Sb); [intros b H1 H2; eauto|].
  destruct (Z.ltb_spec (c_docOffset cf) (c_end cf)) as [L|L].
  - destruct D3 as [(-> & (b0 & Hb0 & Hnz) & HnLE)|[(-> & Hsig)|(-> & Hsig)]].
    + assert (C : Core cf s).
      { destruct cf as [d o ln en ns sh]. cbn [c_docOffset c_end c_doc c_docLength] in *. subst en. apply fresh_core; [lia..|exact F]. }
      split; [|exact H31]. pose proof (loop_count cf Hdo Hend H31 1 (fuel cf) StDocStart (set_vtd b s) s') as G.
      assert (X : b_size (s_vtd s') + 1 <= c_end cf + 1 - c_docOffset cf + 1); [|lia].
      apply G; [split; [core | psimp; lia] | cbn [room]; psimp; lia | discriminate | exact E].
    + apply sigBE_0 in Hsig as H0.
      destruct (loop_be cf (length (c_doc cf)) (set_vtd b (set_single false (set_inc 2 (set_enc FormatUtf16BE s)))) Ho Hr Ha L eq_refl H0)
        as (m & c & s'' & E' & _). unfold fuel in E. rewrite E' in E. discriminate E.
    + destruct (sigLE_0 _ _ Hsig) as [H0 H1].
      destruct (loop_le cf (length (c_doc cf)) (set_vtd b (set_single false (set_inc 2 (set_enc FormatUtf16LE s)))) Ho Hr Ha L eq_refl H0 H1)
        as (e & s'' & E' & _). unfold fuel in E. rewrite E' in E. discriminate E.
  - unfold fuel in E. rewrite loop_empty in E; [discriminate E|].
    destruct D3 as [(-> & _)|[(-> & _)|(-> & _)]]; psimp; lia.
Qed.
