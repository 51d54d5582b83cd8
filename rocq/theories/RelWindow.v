(** Two runs over the same window: the buffer as given, and the buffer cut off at
    the end of the window.  They agree unless the second runs off the buffer. *)
From Verif Require Import Lib XmlChar Buffer BufferProofs Reader ParserState ParserPrim ParserProc ParserMain SpecParse ParserWp ParserInv ParserInvMain DocScan ParserOutcome ParserRel ParserRelMain ParserRelNs.

(** The second run indexed past its buffer or does not return. *)
Definition over : way := fun A _ r2 => r2 = RPanic PnSkipAtEnd \/ r2 = RPanic PnDocIndex \/ r2 = RDiverge.
Lemma over_leaves : leaves over.
Proof. intros A B r1 r2 k1 k2 [-> |[-> | ->]]; unfold over; cbn; auto. Qed.
Lemma over_escapes : escapes over.
Proof. intros A B r1 r2 h1 h2 k1 k2 [-> |[-> | ->]]; unfold over; cbn; auto. Qed.

Definition alike (s1 s2 : pst) : Prop := s1 = s2 /\ (s_enc s2 = FormatAscii \/ s_enc s2 = FormatUtf16LE).
Ltac alike_set := let v := fresh in let s1 := fresh "s" in let s2 := fresh "s" in let H := fresh in
  first [intros v s1 s2 (-> & H) | intros s1 s2 (-> & H)]; split; [reflexivity | exact H].
Lemma alike_frame : frame alike.
Proof. constructor; try alike_set. intros s1 s2 (-> & _). reflexivity. Qed.
Lemma alike_frameL : frameL alike.
Proof. constructor; [exact alike_frame | intros s1 s2 (-> & _); reflexivity | alike_set..]. Qed.
(** Functions that leave the encoding alone. *)
Definition steady {A} (m : M A) : Prop := forall s, match m s with ROk _ s' | RErr _ s' => s_enc s' = s_enc s | _ => True end.
Lemma alike_same {A} (m : M A) : steady m -> sim alike over m m.
Proof.
  intros K s1 s2 (-> & H). left. specialize (K s2). unfold matched. destruct (m s2); try exact I; try reflexivity; (split; [reflexivity|]; split; [reflexivity|]; rewrite K; exact H).
Qed.
Lemma steady_bind {A B} (m : M A) (k : A -> M B) : steady m -> (forall a, steady (k a)) -> steady (bind m k).
Proof.
  intros H K s. unfold bind. specialize (H s). destruct (m s) as [a s1|e s1|w|]; [|exact H|exact I..].
  specialize (K a s1). destruct (k a s1); congruence || exact I.
Qed.
Lemma steady_if {A} (b : bool) (m k : M A) : steady m -> steady k -> steady (if b then m else k).
Proof. destruct b; tauto. Qed.
Lemma steady_modify f : (forall s, s_enc (f s) = s_enc s) -> steady (modify f).
Proof. intros H s. apply H. Qed.
Lemma steady_append g f v : (forall b s, s_enc (f b s) = s_enc s) -> steady (appendTo g f v).
Proof. intros H s. unfold appendTo. destruct (bappend (g s) v) as [b [u|e|w]]; try exact I; apply H. Qed.
Ltac steady := repeat lazymatch goal with
  | |- steady (bind _ _) => apply steady_bind; [|intros ?; cbv beta zeta]
  | |- steady (modify _) => apply steady_modify; intros ?; reflexivity
  | |- steady (appendTo _ _ _) => apply steady_append; intros ? ?; reflexivity
  | |- steady (if _ then _ else _) => apply steady_if
  | |- steady (ret _) => intros ?; reflexivity
  | |- steady (get _) => intros ?; reflexivity
  end.

Section Window.
Variables cf1 cf2 : cfg.
Hypothesis Hdoc : c_doc cf2 = firstn (Z.to_nat (c_end cf1)) (c_doc cf1).
Hypothesis Hoff : c_docOffset cf1 = c_docOffset cf2.
Hypothesis Hlen : c_docLength cf1 = c_docLength cf2.
Hypothesis Hend : c_end cf1 = c_end cf2.
Hypothesis Hns : c_ns cf1 = c_ns cf2.
Hypothesis Hsh : c_shallow cf1 = c_shallow cf2.

Lemma cut_znth i b : znth (c_doc cf2) i = Some b -> znth (c_doc cf1) i = Some b.
Proof.
  rewrite Hdoc. intros H. rewrite <- (firstn_skipn (Z.to_nat (c_end cf1)) (c_doc cf1)).
  pose proof (znth_range _ _ _ H). rewrite znth_app1 by lia. exact H.
Qed.
Lemma cut_in i : i < c_end cf1 -> znth (c_doc cf1) i = znth (c_doc cf2) i.
Proof.
  intros L. destruct (znth (c_doc cf2) i) as [b|] eqn:E; [apply cut_znth, E|].
  destruct (znth (c_doc cf1) i) as [b|] eqn:E1; [|reflexivity]. exfalso. pose proof (znth_range _ _ _ E1) as R.
  apply znth_none_iff in E. rewrite Hdoc in E. unfold zlen in *. rewrite firstn_length in E. lia.
Qed.
Lemma cut_scan : forall n o l c r, lineScan (c_doc cf2) n o l c = Some r -> lineScan (c_doc cf1) n o l c = Some r.
Proof.
  induction n as [|n IH]; intros o l c r; cbn [lineScan]; [exact (fun H => H)|].
  destruct (znth (c_doc cf2) o) as [b|] eqn:E; [|discriminate]. rewrite (cut_znth _ _ E). destruct (_ =? _); apply IH.
Qed.
Lemma cut_scan16 be : forall n o l c r, lineScan16 (c_doc cf2) be n o l c = Some r -> lineScan16 (c_doc cf1) be n o l c = Some r.
Proof.
  induction n as [|n IH]; intros o l c r; cbn [lineScan16]; [exact (fun H => H)|]. cbv zeta.
  repeat match goal with
  | |- context [match znth (c_doc cf2) ?i with _ => _ end] => let b := fresh "b" in let E := fresh "E" in destruct (znth (c_doc cf2) i) as [b|] eqn:E; [rewrite (cut_znth _ _ E) | discriminate]
  | |- context [if ?b then _ else _] => destruct b
  end; apply IH.
Qed.

Lemma cut_skipSeq : forall l r1 r2, rd_ascii r1 = rd_ascii r2 -> rd_doc r1 = c_doc cf1 -> rd_doc r2 = c_doc cf2 -> rd_off r1 = rd_off r2 ->
  snd (rdSkipCharSeq r2 l) = Panic PnSkipAtEnd \/
  (snd (rdSkipCharSeq r1 l) = snd (rdSkipCharSeq r2 l) /\ rd_off (fst (rdSkipCharSeq r1 l)) = rd_off (fst (rdSkipCharSeq r2 l))).
Proof.
  induction l as [|c l IH]; intros r1 r2 A1 A2 A3 A4; cbn [rdSkipCharSeq]; [right; cbn; auto|].
  unfold rdSkipChar. rewrite A2, A3, A4. destruct (znth (c_doc cf2) (rd_off r2)) as [b|] eqn:E; [|left; reflexivity].
  rewrite (cut_znth _ _ E). destruct (c =? b2z b); [|right; cbn; auto]. apply IH; cbn; congruence.
Qed.

Lemma window_prims : prims cf1 cf2 alike over true.
Proof.
  constructor; try assumption; try (intros o; apply sim_endCheck; exact Hend).
  - unfold fuel. rewrite Hdoc, firstn_length. lia.
  - intros _ A r. right; right. reflexivity.
  - intros i s1 s2 (-> & H). unfold idx. destruct (znth (c_doc cf2) i) as [b|] eqn:E; [|right; right; left; reflexivity].
    rewrite (cut_znth _ _ E). left. repeat split; assumption.
  - intros s1 s2 (-> & H). left. unfold getChar, rdGetChar, rdr. cbn [rd_doc rd_off rd_end rd_ascii]. rewrite <- Hend.
    destruct (c_end cf1 <=? s_roff s2) eqn:Z1; [repeat split; exact H|]. rewrite (cut_in (s_roff s2)) by lia.
    destruct (znth (c_doc cf2) (s_roff s2)) as [b|]; [|reflexivity]. cbv zeta. destruct (if s_rascii s2 then _ else _); repeat split; exact H.
  - intros c s1 s2 (-> & H). unfold skipChar, rdSkipChar, rdr. cbn [rd_doc rd_off rd_end rd_ascii].
    destruct (znth (c_doc cf2) (s_roff s2)) as [b|] eqn:E; [|right; left; reflexivity]. rewrite (cut_znth _ _ E). left. destruct (c =? b2z b); repeat split; exact H.
  - intros l s1 s2 (-> & H). unfold skipCharSeq.
    destruct (cut_skipSeq l (rdr cf1 s2) (rdr cf2 s2) eq_refl eq_refl eq_refl eq_refl) as [E|[E1 E2]];
      destruct (rdSkipCharSeq (rdr cf1 s2) l) as [r1 o1], (rdSkipCharSeq (rdr cf2 s2) l) as [r2 o2]; cbn [fst snd] in *.
    + subst o2. right; left. reflexivity.
    + subst o2. rewrite E2. left. destruct o1; repeat split; exact H.
  - intros o s1 s2 (-> & H). unfold fmtCustomLine. rewrite <- Hoff. destruct (s_enc s2 <? FormatUtf16BE).
    + destruct (lineScan (c_doc cf2) _ _ _ _) as [[l lo]|] eqn:E; [|right; right; left; reflexivity]. rewrite (cut_scan _ _ _ _ _ E). left. repeat split; exact H.
    + destruct (lineScan16 (c_doc cf2) _ _ _ _ _) as [[l lo]|] eqn:E; [|right; right; left; reflexivity]. rewrite (cut_scan16 _ _ _ _ _ _ E). left. repeat split; exact H.
Qed.

Ltac weq1 :=
  lazymatch goal with
  | |- sim _ _ (bind (get _) _) _ => apply (sim_getL _ _ _ _ _ _ alike_frameL); intros ? ? ?; cbv beta
  | |- sim _ _ (bind _ _) _ => apply (sim_bind _ _ over_leaves); [|intros ?; cbv beta]
  | |- sim _ _ (if _ then _ else _) _ => apply sim_if; [reflexivity| |]
  | |- sim _ _ (ret _) _ => apply sim_ret; reflexivity
  | |- sim _ _ (fail _) _ => apply sim_fail; reflexivity
  | |- sim _ _ (modify _) _ => apply sim_modify; alike_set
  | |- sim _ _ (parseErr _ _) _ => eapply sim_parseErr; [exact alike_frame | exact over_leaves | exact window_prims]
  | |- sim _ _ (skipEitherCase _ _) _ => eapply sim_skipEitherCase; [exact over_leaves | exact window_prims]
  | |- sim _ _ (matchAt _ _ _) _ => eapply sim_matchAt; [exact over_leaves | exact window_prims]
  | |- sim _ _ (idx _ _) _ => apply (pr_idx _ _ _ _ _ window_prims)
  | |- sim _ _ (writeVtd _ _ _ _) _ => apply sim_writeVtd, alike_frame
  end.
Ltac weq := repeat weq1.

(** The encoding cannot be switched. *)
Lemma window_cannot (k1 k2 : bool -> M unit) : sim alike over (k1 true) (k2 true) -> sim alike over (bind cannotSwitch k1) (bind cannotSwitch k2).
Proof.
  intros K s1 s2 H. pose proof H as (-> & E). unfold cannotSwitch. unfold bind, get, ret.
  assert (X : (s_enc s2 <? FormatUtf16BE) || (s_enc s2 =? FormatUtf16LE) || s_mustUtf8 s2 = true) by (unfold FormatUtf16BE, FormatUtf16LE, FormatAscii in *; lia).
  rewrite X. apply K, H.
Qed.
Lemma window_special : special cf1 cf2 alike over.
Proof.
  apply (special_same _ _ _ _ true alike_frameL over_leaves window_prims Hns).
  - intros s1 s2 o (-> & _). unfold rdGetLongCharAt, rdr. cbn [rd_doc].
    repeat match goal with
    | |- context [match znth (c_doc cf2) ?i with _ => _ end] => let b := fresh "b" in let E := fresh "E" in destruct (znth (c_doc cf2) i) as [b|] eqn:E; [rewrite (cut_znth _ _ E) | intros u1 u2 _; right; right; left; reflexivity]
    | |- context [if ?b then _ else _] => destruct b
    end; apply sim_lift; reflexivity.
  - intros s1 s2 o (-> & _). unfold rdGetCharAt, rdr. cbn [rd_doc].
    destruct (znth (c_doc cf2) o) as [b|] eqn:E; [rewrite (cut_znth _ _ E); apply sim_lift; reflexivity | intros u1 u2 _; right; right; left; reflexivity].
  - unfold writeStartTag. rewrite Hsh. apply (sim_getL _ _ _ _ _ _ alike_frameL). intros s t H. cbv beta zeta. change (graftL s t) with (graftL s t).
    assert (W : forall (b : bool) t o l d, sim alike over ((if b then writeVtd else writeVtdL5) t o l d) ((if b then writeVtd else writeVtdL5) t o l d)).
    { intros b t' o l d. destruct b; [weq|]. apply alike_same. unfold writeVtdL5, writeVtd. cbv zeta. steady. }
    weq; apply W.
  - unfold checkAsciiEncoding. apply (sim_bind _ _ over_leaves); [weq|]. intros b. apply sim_if; [reflexivity | weq |]. apply window_cannot. cbv iota. weq.
  - unfold checkUsAsciiEncoding. apply (sim_bind _ _ over_leaves); [weq|]. intros b. apply sim_if; [reflexivity | weq |]. apply window_cannot. cbv iota. weq.
Qed.
Lemma window_finish : sim alike over (finishUp cf1) (finishUp cf2).
Proof. unfold finishUp. rewrite Hsh. apply alike_same. cbv zeta. steady. Qed.
Lemma window_loop : sim alike over (parseLoop cf1 (fuel cf1) StDocStart) (parseLoop cf2 (fuel cf2) StDocStart).
Proof.
  apply (sim_parseLoop cf1 cf2 alike over over true alike_frame over_leaves over_escapes over_leaves (fun _ _ _ H => H) window_prims window_special window_finish).
  exact (pr_fuel _ _ _ _ _ window_prims).
Qed.

End Window.

(** A window that starts with a zero byte is rejected at once. *)
Lemma loop_zero cf n s : znth (c_doc cf) (s_roff s) = Some x00 -> s_rascii s = false -> s_roff s < c_end cf ->
  parseLoop cf (S (S n)) StDocStart s = @parseErr cf unit "invalid parser state" (adv (s_roff s + 1) 0 s).
Proof.
  intros H0 Ha He. cbn [parseLoop]. unfold catch at 1. cbn [step]. unfold processDocStart. rewrite bindE.
  rewrite (nextChar_at cf s x00) by assumption. rewrite bindE. unfold get at 1. cbv beta iota.
  change (s_cur (adv (s_roff s + 1) (b2z x00) s)) with 0. cbn [Z.eqb orb]. cbv iota. unfold ret at 1. cbn [parseLoop]. unfold catch at 1. cbn [step].
  unfold parseErr. rewrite !bindE. change (b2z x00) with 0. destruct (fmtLine cf (adv (s_roff s + 1) 0 s)); try reflexivity.
  rewrite Bool.andb_false_r. reflexivity.
Qed.

(** The same result, unless the second run leaves its buffer. *)
Definition cutsim {A} (m1 m2 : M A) : Prop := forall s, m1 s = m2 s \/ over A (m1 s) (m2 s).
Lemma cut_refl {A} (m : M A) : cutsim m m.
Proof. intros s. left. reflexivity. Qed.
Lemma cut_bind {A B} (m1 m2 : M A) (k1 k2 : A -> M B) : cutsim m1 m2 -> (forall a, cutsim (k1 a) (k2 a)) -> cutsim (bind m1 k1) (bind m2 k2).
Proof.
  intros H K s. unfold bind. destruct (H s) as [-> | E].
  - destruct (m2 s) as [a s'|e s'|w|]; [apply K | left; reflexivity..].
  - right. exact (over_leaves _ _ _ _ k1 k2 E).
Qed.
Lemma cut_if {A} (b : bool) (m1 m2 k1 k2 : M A) : cutsim m1 m2 -> cutsim k1 k2 -> cutsim (if b then m1 else k1) (if b then m2 else k2).
Proof. destruct b; tauto. Qed.
Section Cut.
Variables cf1 cf2 : cfg.
Hypothesis Hdoc : c_doc cf2 = firstn (Z.to_nat (c_end cf1)) (c_doc cf1).
Hypothesis Hoff : c_docOffset cf1 = c_docOffset cf2.
Hypothesis Hlen : c_docLength cf1 = c_docLength cf2.
Hypothesis Hend : c_end cf1 = c_end cf2.
Hypothesis Hns : c_ns cf1 = c_ns cf2.
Hypothesis Hsh : c_shallow cf1 = c_shallow cf2.
Lemma cut_idx i : cutsim (idx cf1 i) (idx cf2 i).
Proof.
  intros s. unfold idx. destruct (znth (c_doc cf2) i) as [b|] eqn:E; [|right; right; left; reflexivity].
  rewrite (cut_znth cf1 cf2 Hdoc _ _ E). left. reflexivity.
Qed.
Lemma cut_matchAt : forall l o, cutsim (matchAt cf1 o l) (matchAt cf2 o l).
Proof. induction l as [|c l IH]; intros o; cbn [matchAt]; [apply cut_refl|]. apply cut_bind; [apply cut_idx|]. intros x. apply cut_if; [apply IH | apply cut_refl]. Qed.
Lemma cut_decide : cutsim (decideEncoding cf1) (decideEncoding cf2).
Proof.
  unfold decideEncoding. rewrite Hns, Hlen.
  repeat lazymatch goal with
  | |- cutsim ?a ?a => apply cut_refl
  | |- cutsim (bind _ _) _ => apply cut_bind; [|intros ?; cbv beta]
  | |- cutsim (if _ then _ else _) _ => apply cut_if
  | |- cutsim (idx _ _) _ => apply cut_idx
  | |- cutsim (matchAt _ _ _) _ => apply cut_matchAt
  end.
Qed.
Lemma cut_parseErr {A} m : cutsim (@parseErr cf1 A m) (parseErr cf2 m).
Proof.
  unfold parseErr. apply cut_bind; [|intros ?; apply cut_refl]. unfold fmtLine. apply cut_bind; [apply cut_refl|]. intros o s. unfold fmtCustomLine. rewrite <- Hoff.
  destruct (s_enc s <? FormatUtf16BE).
  - destruct (lineScan (c_doc cf2) _ _ _ _) as [[l lo]|] eqn:E; [|right; right; left; reflexivity]. rewrite (cut_scan cf1 cf2 Hdoc _ _ _ _ _ E). left. reflexivity.
  - destruct (lineScan16 (c_doc cf2) _ _ _ _ _) as [[l lo]|] eqn:E; [|right; right; left; reflexivity]. rewrite (cut_scan16 cf1 cf2 Hdoc _ _ _ _ _ _ E). left. reflexivity.
Qed.

Lemma cut_parse s : 0 <= c_docOffset cf1 < c_end cf1 -> fresh (c_docOffset cf1) s -> parse cf1 s = parse cf2 s \/ over unit (parse cf1 s) (parse cf2 s).
Proof.
  intros Ho F.
  assert (Hs : s_off s = c_docOffset cf1 /\ s_roff s = c_docOffset cf1 /\ s_rascii s = false /\ s_enc s = 0 /\ s_inc s = 1 /\ s_single s = true).
  { destruct F as (? & ? & ? & ? & ? & ? & ? & ? & ? & -> & _). repeat split. }
  destruct Hs as (Hs & Hr & Ha & He & Hi & Hsi).
  assert (B : lbOk (s_vtd s)) by exact (proj1 (fresh_bufs _ _ F)).
  pose proof (decide_spec cf2 s ltac:(lia) ltac:(congruence) He Hi Hsi) as D.
  unfold parse. rewrite (bindE (decideEncoding cf1)), (bindE (decideEncoding cf2)). destruct (cut_decide s) as [-> | E].
  2:{ right. exact (over_leaves _ _ _ _ (fun _ => _) (fun _ => _) E). }
  destruct (decideEncoding cf2 s) as [u s1|e s1|w|]; [|left; reflexivity..]. destruct D as (_ & _ & D).
  rewrite !bind_get. cbv beta. rewrite !bindE. unfold writeVtd.
  assert (B1 : lbOk (s_vtd s1)) by (destruct D as [(-> & _)|[(-> & _)|(-> & _)]]; exact B).
  match goal with |- context [appendTo s_vtd set_vtd ?v s1] => destruct (appendVtd v s1 B1) as (b & Eb & _) end. rewrite !Eb.
  assert (L : forall t, alike t t -> parseLoop cf1 (fuel cf1) StDocStart t = parseLoop cf2 (fuel cf2) StDocStart t \/ over unit (parseLoop cf1 (fuel cf1) StDocStart t) (parseLoop cf2 (fuel cf2) StDocStart t)).
  { intros t H. destruct (window_loop cf1 cf2 Hdoc Hoff Hend Hns Hsh t t H) as [M|M]; [left | right; exact M].
    destruct (parseLoop cf1 _ _ t), (parseLoop cf2 _ _ t); cbn in M; try contradiction; [| |subst; reflexivity|reflexivity]; destruct M as (-> & -> & _); reflexivity. }
  destruct D as [(-> & _)|[(-> & Sg)|(-> & Sg)]].
  - apply L. split; [reflexivity|]. left. exact He.
  - apply sigBE_0 in Sg. assert (Z2 : znth (c_doc cf2) (c_docOffset cf1) = Some x00) by congruence.
    unfold fuel. rewrite !loop_zero; try assumption; try (change (s_roff s < c_end cf2); lia); try (change (s_roff s < c_end cf1); lia).
    + apply cut_parseErr.
    + change (znth (c_doc cf2) (s_roff s) = Some x00). congruence.
    + change (znth (c_doc cf1) (s_roff s) = Some x00). rewrite Hr. apply (cut_znth cf1 cf2 Hdoc), Z2.
  - apply L. split; [reflexivity|]. right. reflexivity.
Qed.
End Cut.
