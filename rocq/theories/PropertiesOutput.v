(** Properties C100-C105: what Parse does besides returning, and the texts of its errors. *)
From Coq Require Import DecimalString DecimalPos DecimalZ Lia.
From Verif Require Import GoBase Lib Buffer BufferProofs Reader ParserState ParserPrim ParserProc ParserMain Output
  SpecParse SpecDoc ParserWp ParserInv ParserInvMain ParserOutcome ParserAgain PropertiesParse.
Local Open Scope string_scope.

(** ** The model with effects returns what the model without them returns *)
Lemma asEof_as e : (match asEof e with Some _ => true | None => false end) = as_eof e.
Proof. revert e. fix IH 1. intros [? ? [e|]|? [e|]|? ?|?|?|?|?|?]; cbn; try reflexivity; apply IH. Qed.
Lemma loopE_result cf n : forall ps s, snd (parseLoopE cf n ps s) = parseLoop cf n ps s.
Proof.
  induction n as [|n IH]; intros ps s; [reflexivity|]. cbn [parseLoopE parseLoop]. unfold catch at 1.
  destruct (step cf ps s) as [ps' s'|e s'|w|]; cbn [snd]; try reflexivity.
  - rewrite <- IH. destruct (parseLoopE cf n ps' s'). reflexivity.
  - rewrite asEof_as. destruct (as_eof e && isDocEnd ps)%bool; [|reflexivity]. unfold catch.
    destruct (finishUp cf s') as [[] ?|? ?|?|]; reflexivity.
Qed.
Lemma parseE_result cf s : snd (parseE cf s) = parse cf s.
Proof.
  unfold parseE, parse. rewrite bindE. destruct (decideEncoding cf s) as [u s1|e s1|w|]; try reflexivity.
  rewrite bindE. unfold get at 1. cbv beta iota. rewrite bindE. change (s_depth s1) with (s_depth s1).
  destruct (writeVtd TokDocument 0 0 (s_depth s1) s1) as [u' s2|e s2|w|]; try reflexivity. apply loopE_result.
Qed.

(** ** C100: standard output *)
(** The two lines printed for one state. *)
Definition two_lines (a b : string) : Prop :=
  exists p o l c n, a = "Starting process state: " ++ dec p /\
    b = "Offset: " ++ dec o ++ " LastOffset " ++ dec l ++ " CurrentChar " ++ dec c ++ " Length1 " ++ dec n.
Inductive state_lines : nat -> list string -> Prop :=
| sl_nil : state_lines 0 []
| sl_cons k a b ls : two_lines a b -> state_lines k ls -> state_lines (S k) (a :: b :: ls).

Lemma loopE_lines cf n : forall ps s, exists k rest,
  out_lines (fst (parseLoopE cf (S n) ps s)) = (printState ps s ++ rest)%list /\ (k <= n)%nat /\ state_lines k rest.
Proof.
  induction n as [|n IH]; intros ps s.
  - exists 0%nat, (@nil string). cbn [parseLoopE]. destruct (step cf ps s); repeat split; try constructor; rewrite app_nil_r; reflexivity.
  - change (parseLoopE cf (S (S n)) ps s) with
      (let ls := printState ps s in
       match step cf ps s with
       | ROk ps' s' => let (f, r) := parseLoopE cf (S n) ps' s' in (mkEffect (ls ++ out_lines f)%list (eof_set f), r)
       | RErr e s' =>
          (mkEffect ls (asEof e),
           if ((match asEof e with Some _ => true | None => false end) && isDocEnd ps)%bool then
             match finishUp cf s' with
             | RErr e' s'' => RErr (EInternal "failed to finish-up document parsing" (Some e')) s''
             | r => r
             end
           else RErr e s')
       | RPanic w => (mkEffect ls None, RPanic w)
       | RDiverge => (mkEffect ls None, RDiverge)
       end). cbv zeta.
    destruct (step cf ps s) as [ps' s'|e s'|w|];
      try (exists 0%nat, (@nil string); split; [cbn [fst out_lines]; rewrite app_nil_r; reflexivity | split; [lia | constructor]]).
    destruct (IH ps' s') as (k & rest & E & L & SL).
    destruct (parseLoopE cf (S n) ps' s') as [f r]. cbn [fst] in E. exists (S k), (printState ps' s' ++ rest)%list.
    split; [cbn [fst out_lines]; rewrite E; reflexivity|]. split; [lia|].
    constructor; [|exact SL]. exists (stateCode ps'), (s_off s'), (s_last s'), (s_cur s'), (s_len1 s'). split; reflexivity.
Qed.
(** A loop that succeeds ends in the state behind the root element. *)
Lemma loopE_last cf n : forall ps s s', parseLoop cf n ps s = ROk tt s' ->
  exists pre b, out_lines (fst (parseLoopE cf n ps s)) = (pre ++ ["Starting process state: 7"; b])%list.
Proof.
  induction n as [|n IH]; intros ps s s' E; [discriminate E|]. cbn [parseLoop] in E. unfold catch at 1 in E. cbn [parseLoopE].
  destruct (step cf ps s) as [ps1 s1|e s1|w|]; try discriminate E.
  - destruct (IH _ _ _ E) as (pre & b & X). destruct (parseLoopE cf n ps1 s1) as [f r]. cbn [fst out_lines] in *.
    rewrite X. exists (printState ps s ++ pre)%list, b. rewrite app_assoc. reflexivity.
  - destruct (as_eof e && isDocEnd ps)%bool eqn:B; [|discriminate E]. apply andb_true_iff in B. destruct B as [_ B].
    destruct ps; try discriminate B. exists [], ("Offset: " ++ dec (s_off s) ++ " LastOffset " ++ dec (s_last s) ++ " CurrentChar " ++ dec (s_cur s) ++ " Length1 " ++ dec (s_len1 s)). reflexivity.
Qed.

Definition silent (opts : list popt) : Prop := out_lines (runEffect opts) = [].
Theorem C100_stdout_refuted : exists opts s, Forall go_value opts /\ runParser opts = Parsed s /\ ~ silent opts.
Proof.
  exists [OXmlDoc (Some (bytes_of "<a/>"))]. eexists. split; [|split; [vm_compute; reflexivity|]].
  - repeat constructor.
  - unfold silent. vm_compute. discriminate.
Qed.
Print Assumptions C100_stdout_refuted.

(** Exactly: nothing if Parse ends before its loop (encoding or size), which it can
    only do by failing; else two lines per state, first those of the start, at most
    two states more than the buffer has bytes, last those of the document end when the
    document is accepted. *)
Theorem C103_stdout_exact : forall opts doc off len, Forall go_value opts -> window_of opts = (Some doc, off, len) ->
  (silent opts /\ forall s, runParser opts <> Parsed s) \/
  exists k rest, out_lines (runEffect opts) =
      "Starting process state: 6" :: ("Offset: " ++ dec off ++ " LastOffset 0 CurrentChar 0 Length1 0") :: rest /\
    state_lines k rest /\ Z.of_nat k <= zlen doc + 1 /\
    forall s, runParser opts = Parsed s ->
      exists pre b, out_lines (runEffect opts) = (pre ++ ["Starting process state: 7"; b])%list.
Proof.
  intros opts doc off len F W. pose proof (new_spec opts F) as P. unfold silent, runEffect, runParser.
  destruct (newVtdParser opts) as [[cf s]|e|w]; [|left; split; [reflexivity | discriminate]..].
  destruct P as (G & P1 & P2 & P3 & P4 & P5 & P6). rewrite W in *. cbn in P1, P2. 
  assert (D : c_doc cf = doc /\ c_docOffset cf = off).
  { cbn in G. destruct G as (G0 & G). injection G0 as ->. split; [reflexivity | exact P1]. }
  destruct D as [<- <-].
  assert (Ho : s_off s = c_docOffset cf /\ s_last s = 0 /\ s_cur s = 0 /\ s_len1 s = 0).
  { destruct P6 as (? & ? & ? & ? & ? & ? & ? & ? & ? & -> & _). repeat split. }
  pose proof (parseE_result cf s) as R. unfold parseE in *.
  assert (Hs : s_enc s = 0 /\ s_inc s = 1 /\ s_single s = true).
  { destruct P6 as (? & ? & ? & ? & ? & ? & ? & ? & ? & -> & _). repeat split. }
  destruct Hs as (He & Hi & Hsi). destruct Ho as (Ho & Hl & Hc & Hn).
  assert (Hdo : 0 <= c_docOffset cf) by (cbn in G; lia).
  pose proof (decide_spec cf s Hdo Ho He Hi Hsi) as D.
  destruct (decideEncoding cf s) as [u s1|e s1|w|]; try (left; cbn [snd fst] in *; rewrite <- R; split; [reflexivity | discriminate]).
  change (s_depth s1) with (s_depth s1) in *.
  assert (A1 : s_off s1 = c_docOffset cf /\ s_last s1 = 0 /\ s_cur s1 = 0 /\ s_len1 s1 = 0).
  { destruct D as (_ & _ & [(-> & _)|[(-> & _)|(-> & _)]]); repeat split; assumption. }
  destruct (writeVtd TokDocument 0 0 (s_depth s1) s1) as [u2 s2|e s2|w|] eqn:Ew; try (left; cbn [snd fst] in *; rewrite <- R; split; [reflexivity | discriminate]).
  right. unfold writeVtd, appendTo in Ew. destruct (bappend (s_vtd s1) _) as [b [v|e|w]]; try discriminate Ew. injection Ew as <- <-.
  destruct A1 as (A1 & A2 & A3 & A4).
  destruct (loopE_lines cf (S (length (c_doc cf))) StDocStart (set_vtd b s1)) as (k & rest & E & L & SL).
  unfold fuel in *. exists k, rest. split; [|split; [exact SL|split; [unfold zlen; lia|]]].
  - rewrite E. unfold printState. change (s_off (set_vtd b s1)) with (s_off s1). change (s_last (set_vtd b s1)) with (s_last s1).
    change (s_cur (set_vtd b s1)) with (s_cur s1). change (s_len1 (set_vtd b s1)) with (s_len1 s1). rewrite A1, A2, A3, A4. reflexivity.
  - intros s' E'. rewrite <- R, loopE_result in E'.
    destruct (parseLoop cf (S (S (length (c_doc cf)))) StDocStart (set_vtd b s1)) as [[] s3|? ?|?|] eqn:X; try discriminate E'.
    exact (loopE_last _ _ _ _ _ X).
Qed.
Print Assumptions C103_stdout_exact.
Example C103_example : out_lines (runEffect [OXmlDoc (Some (bytes_of "<a/>"))]) =
  ["Starting process state: 6"; "Offset: 0 LastOffset 0 CurrentChar 0 Length1 0";
   "Starting process state: 0"; "Offset: 1 LastOffset 1 CurrentChar 60 Length1 0";
   "Starting process state: 1"; "Offset: 2 LastOffset 1 CurrentChar 97 Length1 0";
   "Starting process state: 7"; "Offset: 4 LastOffset 1 CurrentChar 62 Length1 1"].
Proof. vm_compute. reflexivity. Qed.

(** ** C101: the package variable erroring.EOFErrorType *)
Lemma asEof_type e : errors_as TEof e <-> asEof e <> None.
Proof.
  revert e. fix IH 1. intros [? ? [e|]|? [e|]|? ?|?|?|?|?|?]; cbn; try (rewrite <- (IH e)); try (split; [intros [X|X]; first [exact X | discriminate X | contradiction] | intros X; right; exact X]);
    try (split; [intros [X|X]; [discriminate X | contradiction] | intros X; exfalso; apply X; reflexivity]).
  split; [discriminate | left; reflexivity].
Qed.
Definition eofMsg (e : goerr) : Prop := forall e', asEof e = Some e' -> e' = EEof XmlIncomplete.
Lemma errOk_eof cf e : errOk cf e -> eofMsg e.
Proof.
  unfold eofMsg. revert e. fix IH 1. intros [? ? [e|]|? [e|]|? ?|?|?|?|?|?]; cbn; intros H e' E; try discriminate E.
  - exact (IH e H e' E).
  - exact (IH e H e' E).
  - injection E as <-. rewrite H. reflexivity.
Qed.
Lemma errOk16_eof cf e : errOk16 cf e -> eofMsg e.
Proof.
  unfold eofMsg. revert e. fix IH 1. intros [? ? [e|]|? [e|]|? ?|?|?|?|?|?]; cbn; intros H e' E; try discriminate E.
  - exact (IH e H e' E).
  - exact (IH e H e' E).
  - injection E as <-. rewrite H. reflexivity.
Qed.
Lemma append_good getb setb v s : lbOk (getb s) -> exists s', appendTo getb setb v s = ROk tt s'.
Proof. intros (e & l & R). unfold appendTo. destruct (bappend_repr e (getb s) l v R) as (b' & -> & _). eexists. reflexivity. Qed.
Lemma finish_good cf s : bufsOk s -> exists s', finishUp cf s = ROk tt s'.
Proof.
  intros (B0 & B1 & B2 & B3 & B4 & B5). unfold finishUp. rewrite bindE. unfold get at 1. cbv beta iota.
  repeat match goal with |- context [if ?b then _ else _] => destruct b end; try (eexists; reflexivity); apply append_good; assumption.
Qed.

Section Eof.
Variable cf : cfg.
Lemma loopE_eof n : forall ps s e s', snd (parseLoopE cf n ps s) = RErr e s' ->
  eof_set (fst (parseLoopE cf n ps s)) = asEof e \/ exists e', e = EInternal "failed to finish-up document parsing" (Some e').
Proof.
  induction n as [|n IH]; intros ps s e s' E; [discriminate E|]. cbn [parseLoopE] in *.
  destruct (step cf ps s) as [ps1 s1|e1 s1|w|]; try discriminate E.
  - specialize (IH ps1 s1 e s'). destruct (parseLoopE cf n ps1 s1) as [f r]. exact (IH E).
  - cbn [snd fst eof_set] in *. destruct ((match asEof e1 with Some _ => true | None => false end) && isDocEnd ps)%bool.
    + destruct (finishUp cf s1); try discriminate E. right. injection E as <- <-. eexists. reflexivity.
    + injection E as <- <-. left. reflexivity.
Qed.
Hypothesis Hdo : 0 <= c_docOffset cf.
Hypothesis Hend : 0 <= c_end cf <= zlen (c_doc cf).
Hypothesis Hend31 : c_end cf < 2^31.
Lemma loopE_inv n : forall ps s, Inv cf ps s ->
  let (f, r) := parseLoopE cf n ps s in
  match r with
  | ROk _ _ => eof_set f = Some (EEof XmlIncomplete)
  | RErr e _ => eof_set f = asEof e
  | _ => eof_set f = None
  end.
Proof.
  induction n as [|n IH]; intros ps s I; [reflexivity|]. cbn [parseLoopE]. pose proof (wp_step cf Hdo Hend Hend31 ps s I) as W. unfold wp in W.
  destruct (step cf ps s) as [ps1 s1|e s1|w|]; try reflexivity.
  - specialize (IH ps1 s1 (proj1 W)). destruct (parseLoopE cf n ps1 s1) as [f r]. exact IH.
  - destruct W as [W1 W2]. pose proof (errOk_eof _ _ W1) as M. unfold eofMsg in M. cbn [eof_set]. destruct (asEof e) as [e'|] eqn:A; cbn [andb].
    + destruct (isDocEnd ps); [|exact (eq_sym A)]. destruct (finish_good cf s1 W2) as (s2 & ->). f_equal. apply M. reflexivity.
    + exact (eq_sym A).
Qed.
End Eof.

Lemma effect_spec cf s : 0 <= c_docOffset cf -> 0 <= c_end cf <= zlen (c_doc cf) -> c_end cf = c_docOffset cf + c_docLength cf -> fresh (c_docOffset cf) s ->
  match parse cf s with
  | ROk _ _ => eof_set (fst (parseE cf s)) = Some (EEof XmlIncomplete)
  | RErr e _ => eof_set (fst (parseE cf s)) = asEof e
  | _ => eof_set (fst (parseE cf s)) = None
  end.
Proof.
  intros Hdo Hend He F. rewrite <- parseE_result.
  assert (Ho : s_off s = c_docOffset cf /\ s_roff s = c_docOffset cf /\ s_rascii s = false /\ s_enc s = 0 /\ s_inc s = 1 /\ s_single s = true).
  { destruct F as (? & ? & ? & ? & ? & ? & ? & ? & ? & -> & _). repeat split. }
  destruct Ho as (Ho & Hr & Ha & Hn & Hi & Hsi). pose proof (fresh_bufs _ _ F) as B.
  pose proof (decide_spec cf s Hdo Ho Hn Hi Hsi) as D. unfold parseE.
  destruct (decideEncoding cf s) as [u s1|e s1|w|]; try reflexivity.
  2:{ destruct D as (sc & sn & _ & [(-> & _)|(m & -> & _)]); reflexivity. }
  rewrite Ho in D. destruct D as (D1 & D2 & D3). unfold writeVtd.
  assert (B1 : bufsOk s1) by (destruct D3 as [(-> & _)|[(-> & _)|(-> & _)]]; exact B).
  match goal with |- context [appendTo s_vtd set_vtd ?v s1] => destruct (appendVtd v s1 (proj1 B1)) as (b & -> & Lb) end.
  assert (G : forall x e s', parseLoop cf (fuel cf) StDocStart x = RErr e s' ->
    (forall e', e <> EInternal "failed to finish-up document parsing" (Some e')) ->
    match snd (parseLoopE cf (fuel cf) StDocStart x) with
    | ROk _ _ => eof_set (fst (parseLoopE cf (fuel cf) StDocStart x)) = Some (EEof XmlIncomplete)
    | RErr e _ => eof_set (fst (parseLoopE cf (fuel cf) StDocStart x)) = asEof e
    | _ => eof_set (fst (parseLoopE cf (fuel cf) StDocStart x)) = None
    end).
  { intros x e s' E N. pose proof (loopE_eof cf (fuel cf) StDocStart x) as K. rewrite loopE_result, E in *. destruct (K _ _ eq_refl) as [K'|(e' & K')]; [exact K' | destruct (N _ K')]. }
  destruct (Z.ltb_spec (c_docOffset cf) (c_end cf)) as [L|L].
  - destruct D3 as [(-> & (b0 & Hb0 & Hnz) & HnLE)|[(-> & Hsig)|(-> & Hsig)]].
    + assert (C : Core cf s).
      { destruct cf as [d o ln en ns sh]. cbn [c_docOffset c_end c_doc c_docLength] in *. subst en. apply fresh_core; [lia..|exact F]. }
      assert (Hd : s_depth s = -1) by (destruct F as (? & ? & ? & ? & ? & ? & ? & ? & ? & -> & _); reflexivity).
      pose proof (loopE_inv cf Hdo Hend ltac:(lia) (fuel cf) StDocStart (set_vtd b s) ltac:(split; [core | psimp; lia])) as K.
      destruct (parseLoopE cf (fuel cf) StDocStart (set_vtd b s)) as [f r]. exact K.
    + apply sigBE_0 in Hsig as H0.
      destruct (loop_be cf (length (c_doc cf)) (set_vtd b (set_single false (set_inc 2 (set_enc FormatUtf16BE s)))) Ho Hr Ha L eq_refl H0)
        as (m & c & s'' & E' & _). eapply G; [exact E' | discriminate].
    + destruct (sigLE_0 _ _ Hsig) as [H0 H1].
      destruct (loop_le cf (length (c_doc cf)) (set_vtd b (set_single false (set_inc 2 (set_enc FormatUtf16LE s)))) Ho Hr Ha L eq_refl H0 H1)
        as (e & s'' & E' & [->|(m & ->)] & _); (eapply G; [exact E' | discriminate]).
  - eapply G; [apply loop_empty | discriminate].
    destruct D3 as [(-> & _)|[(-> & _)|(-> & _)]]; psimp; lia.
Qed.

(** Parse leaves the variable as it was. *)
Definition untouched (opts : list popt) : Prop := eof_set (runEffect opts) = None.
Theorem C101_variable_refuted : exists opts s, Forall go_value opts /\ runParser opts = Parsed s /\ ~ untouched opts.
Proof.
  exists [OXmlDoc (Some (bytes_of "<a/>"))]. eexists. split; [|split; [vm_compute; reflexivity|]].
  - repeat constructor.
  - unfold untouched. vm_compute. discriminate.
Qed.
Print Assumptions C101_variable_refuted.

(** Exactly: it is assigned by every successful call and by every call that fails with
    an error in whose chain there is an EOFError, and by no other; the value assigned
    always says that the document is incomplete. *)
Theorem C104_variable_exact : forall opts, Forall go_value opts ->
  match runParser opts with
  | Parsed _ => eof_set (runEffect opts) = Some (EEof "XML document incomplete")
  | Rejected e _ =>
      (errors_as TEof e /\ eof_set (runEffect opts) = Some (EEof "XML document incomplete")) \/
      (~ errors_as TEof e /\ untouched opts)
  | _ => untouched opts
  end.
Proof.
  intros opts F. pose proof (run_spec opts F) as P. unfold untouched, runEffect, runParser in *.
  destruct (newVtdParser opts) as [[cf s]|e|w] eqn:N; try reflexivity.
  assert (K : 0 <= c_docOffset cf /\ 0 <= c_end cf <= zlen (c_doc cf) /\ c_end cf = c_docOffset cf + c_docLength cf).
  { destruct (parse cf s); destruct P as (? & ? & P & P1 & P2 & P3 & _); injection P as <- <-; repeat split; first [assumption | apply P2]. }
  destruct K as (K1 & K2 & K3). pose proof (new_spec opts F) as Q. rewrite N in Q. destruct Q as (_ & _ & _ & _ & _ & _ & Q).
  pose proof (effect_spec cf s K1 K2 K3 Q) as E. pose proof (asEof_type) as T.
  destruct (parse cf s) as [u s'|e s'|w|]; try exact E.
  destruct P as (cf' & ? & P & _ & _ & _ & _ & _ & _ & D). injection P as <- <-.
  assert (M : eofMsg e) by (destruct D as [D|[_ D]]; [exact (errOk_eof _ _ D) | exact (errOk16_eof _ _ D)]).
  specialize (T e). unfold eofMsg in M. destruct (asEof e) as [e'|].
  - left. split; [apply T; discriminate|]. rewrite E. f_equal. apply M. reflexivity.
  - right. split; [|exact E]. intros X. apply T in X. apply X. reflexivity.
Qed.
Print Assumptions C104_variable_exact.
Example C104_example :
  eof_set (runEffect [OXmlDoc (Some (bytes_of "<a>"))]) = Some (EEof XmlIncomplete) /\
  eof_set (runEffect [OXmlDoc (Some (bytes_of "<a></b>"))]) = None /\
  errorText (EEof XmlIncomplete) = "premature EOF reached: XML document incomplete".
Proof. split; [vm_compute; reflexivity|]. split; [vm_compute; reflexivity|]. reflexivity. Qed.

(** ** C102: the text of an error and its position *)
Fixpoint no_space (s : string) : Prop :=
  match s with
  | EmptyString => True
  | String c t => c <> Ascii.ascii_of_nat 32 /\ no_space t
  end.
Lemma dec_int z : Z.to_int z <> Decimal.Pos Decimal.Nil /\ Z.to_int z <> Decimal.Neg Decimal.Nil.
Proof.
  destruct z as [|p|p]; cbn [Z.to_int]; split; try discriminate; intros X; injection X; apply DecimalPos.Unsigned.to_uint_nonnil.
Qed.
Lemma dec_inj x y : dec x = dec y -> x = y.
Proof.
  unfold dec. intros E. destruct (dec_int x) as [X1 X2]. destruct (dec_int y) as [Y1 Y2].
  pose proof (NilZero.isi _ X1 X2) as X. rewrite E in X. rewrite (NilZero.isi _ Y1 Y2) in X. injection X as X.
  rewrite <- (DecimalZ.of_to x), <- (DecimalZ.of_to y), X. reflexivity.
Qed.
Lemma uint_no_space d : no_space (NilEmpty.string_of_uint d).
Proof. induction d; cbn; try exact I; (split; [discriminate | assumption]). Qed.
Lemma dec_no_space z : no_space (dec z).
Proof.
  unfold dec, NilZero.string_of_int. assert (U : forall d, no_space (NilZero.string_of_uint d)).
  { intros d. unfold NilZero.string_of_uint. pose proof (uint_no_space d) as X. destruct d; try exact X. cbn. split; [discriminate | exact I]. }
  destruct (Z.to_int z) as [d|d]; [apply U|]. cbn [no_space]. split; [discriminate | apply U].
Qed.
Lemma cut_space a : forall a' b b', no_space a -> no_space a' -> a ++ " " ++ b = a' ++ " " ++ b' -> a = a' /\ b = b'.
Proof.
  induction a as [|c a IH]; intros [|c' a'] b b' N N'; cbn [append]; intros E.
  - injection E as E. split; [reflexivity | exact E].
  - injection E as E1 E2. destruct N' as [N' _]. destruct N'. symmetry. exact E1.
  - injection E as E1 E2. destruct N as [N _]. destruct N. exact E1.
  - injection E as E1 E2. subst c'. destruct (IH a' b b' (proj2 N) (proj2 N') E2) as [-> ->]. split; reflexivity.
Qed.
(** The text of a position. *)
Definition position_text (l c : Z) : string := String (Ascii.ascii_of_nat 10) "Line number: " ++ dec l ++ " Offset: " ++ dec c.
Theorem C105_position_readable : forall l c l' c', position_text l c = position_text l' c' -> l = l' /\ c = c'.
Proof.
  intros l c l' c' E. unfold position_text in E. cbn [append] in E. repeat (injection E as E).
  change (dec l ++ " " ++ ("Offset: " ++ dec c) = dec l' ++ " " ++ ("Offset: " ++ dec c')) in E.
  apply cut_space in E; [|apply dec_no_space..]. destruct E as [E1 E2]. cbn [append] in E2. repeat (injection E2 as E2).
  split; apply dec_inj; assumption.
Qed.
Print Assumptions C105_position_readable.

(** Two documents wrong in different places, with the same text. *)
Theorem C102_text_position_refuted : exists o1 o2 e1 e2 s1 s2 p1 p2, Forall go_value o1 /\ Forall go_value o2 /\
  runParser o1 = Rejected e1 s1 /\ runParser o2 = Rejected e2 s2 /\ reported e1 = Some p1 /\ reported e2 = Some p2 /\
  p1 <> p2 /\ errorText e1 = errorText e2.
Proof.
  exists [OXmlDoc (Some (bytes_of "<a></b>"))], [OXmlDoc (Some (bytes_of "<a>" ++ [x0a] ++ bytes_of "</b>"))%list].
  do 6 eexists. split; [repeat constructor|]. split; [repeat constructor|].
  split; [vm_compute; reflexivity|]. split; [vm_compute; reflexivity|]. split; [reflexivity|]. split; [reflexivity|]. split; [discriminate|]. reflexivity.
Qed.
Print Assumptions C102_text_position_refuted.

(** The text of an error that wraps another one does not mention it. *)
Theorem C102_text_cause_refuted : exists opts e e' s, Forall go_value opts /\ runParser opts = Rejected e s /\ unwrap e = Some e' /\
  index 0 (errorText e') (errorText e) = None.
Proof.
  exists [OCustom (Some (bytes_of "<a/>")) 0 1]. do 3 eexists. split; [constructor; [cbn [go_value]; split; [lia|]; split; [lia|]; intros l [= <-]; vm_compute; reflexivity | constructor]|].
  split; [vm_compute; reflexivity|]. split; [reflexivity|]. vm_compute. reflexivity.
Qed.
Print Assumptions C102_text_cause_refuted.

(** Exactly: the text is a fixed beginning and the message; the position is in the field
    LineNumber, which every ParseError of Parse has, in a form that can be read back. *)
Theorem C105_text_exact : forall opts doc off len e s, Forall go_value opts -> window_of opts = (Some doc, off, len) ->
  runParser opts = Rejected e s ->
  match e with
  | EParse msg _ => errorText e = "a parse error occurred: " ++ msg /\
      exists l c, lineNumber e = Some (position_text l c) /\
        ((exists o, off <= o <= zlen doc /\ line_col doc off o l c) \/
         ((bytes_at doc off sigBE \/ bytes_at doc off sigLE) /\ l = 1 /\ exists o, off <= o <= zlen doc /\ c = o / 2 + 1))
  | EInternal msg _ => errorText e = "an internal error occurred: " ++ msg
  | EEof msg => errorText e = "premature EOF reached: XML document incomplete"
  | EEncoding msg => errorText e = "unknown character encoding: " ++ msg
  | EEntity msg => errorText e = "unknown character encoding: " ++ msg
  | EInvalidArg param msg _ => errorText e = "invalid argument " ++ param ++ ": " ++ msg
  | ENavigation _ | EModify _ => False
  end.
Proof.
  intros opts doc off len e s F W E. pose proof (run_spec opts F) as P. rewrite E, W in P.
  destruct P as (cf & s0 & _ & _ & _ & _ & _ & Q & _ & D). injection Q as Q1 Q2 Q3.
  destruct e as [? ? ?|? ?|msg [[l c]|]|?|?|?|?|?]; try reflexivity; try (destruct D as [D|[_ D]]; exact D).
  - split; [reflexivity|]. exists l, c. split; [reflexivity|].
    exact (C49_error_position opts doc off len _ s l c F W E eq_refl).
  - destruct D as [D|[_ D]]; destruct D.
  - destruct D as [D|[_ D]]; cbn in D; rewrite D; reflexivity.
Qed.
Print Assumptions C105_text_exact.
Example C105_example : exists e s, runParser [OXmlDoc (Some (bytes_of "<a>" ++ [x0a] ++ bytes_of "</b>"))%list] = Rejected e s /\
  errorText e = "a parse error occurred: start/end tag mismatch" /\
  lineNumber e = Some (String (Ascii.ascii_of_nat 10) "Line number: 2 Offset: 5").
Proof. do 2 eexists. split; [vm_compute; reflexivity|]. split; reflexivity. Qed.
