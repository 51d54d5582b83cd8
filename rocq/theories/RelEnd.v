(** Two runs over the same buffer whose windows end at different positions: the
    steps that succeed in the shorter window give the same result in the longer one. *)
From Verif Require Import Lib XmlChar Buffer BufferProofs Reader ParserState ParserPrim ParserProc ParserMain SpecParse ParserWp ParserInv ParserInvMain DocScan ParserOutcome ParserRel ParserRelMain ParserRelNs RelWindow.

(** The first run does not succeed. *)
Definition lost : way := fun A r1 _ => match r1 with ROk _ _ => False | _ => True end.
Lemma lost_leaves : leaves lost.
Proof. intros A B [a s|e s|w|] r2 k1 k2 H; cbn in *; exact H || contradiction. Qed.
Lemma lost_errs : errs lost lost.
Proof. intros A B [a s|e s|w|] r2 f k1 k2 H; cbn in *; exact H || contradiction. Qed.
Lemma alike_same' {A} (m : M A) : steady m -> sim alike lost m m.
Proof.
  intros K s1 s2 (-> & H). left. specialize (K s2). unfold matched. destruct (m s2); try exact I; try reflexivity; (split; [reflexivity|]; split; [reflexivity|]; rewrite K; exact H).
Qed.

Section End.
Variables cf1 cf2 : cfg.
Hypothesis Hdoc : c_doc cf1 = c_doc cf2.
Hypothesis Hoff : c_docOffset cf1 = c_docOffset cf2.
Hypothesis Hend : c_end cf1 <= c_end cf2.
Hypothesis Hns : c_ns cf1 = c_ns cf2.
Hypothesis Hsh : c_shallow cf1 = c_shallow cf2.

Lemma end_skipSeq : forall l r1 r2, rd_doc r1 = rd_doc r2 -> rd_off r1 = rd_off r2 ->
  snd (rdSkipCharSeq r1 l) = snd (rdSkipCharSeq r2 l) /\ rd_off (fst (rdSkipCharSeq r1 l)) = rd_off (fst (rdSkipCharSeq r2 l)).
Proof.
  induction l as [|c l IH]; intros r1 r2 A2 A4; cbn [rdSkipCharSeq]; [cbn; auto|].
  unfold rdSkipChar. rewrite A2, A4. destruct (znth (rd_doc r2) (rd_off r2)) as [b|] eqn:E; [|cbn; auto].
  destruct (c =? b2z b); [|cbn; auto]. apply IH; cbn; congruence.
Qed.
Lemma end_prims : prims cf1 cf2 alike lost false.
Proof.
  constructor; try assumption.
  - intros o s1 s2 (-> & H). unfold endCheck. destruct (c_end cf1 <=? o) eqn:E; [right; exact I|]. left.
    destruct (c_end cf2 <=? o) eqn:E2; [lia|]. repeat split; exact H.
  - unfold fuel. rewrite Hdoc. reflexivity.
  - discriminate.
  - intros i s1 s2 (-> & H). left. unfold idx. rewrite Hdoc. destruct (znth _ _); [repeat split; exact H | reflexivity].
  - intros s1 s2 (-> & H). unfold getChar, rdGetChar, rdr. cbn [rd_doc rd_off rd_end rd_ascii]. rewrite Hdoc.
    destruct (c_end cf1 <=? s_roff s2) eqn:Z1; [right; exact I|]. left. destruct (c_end cf2 <=? s_roff s2) eqn:Z2; [lia|].
    destruct (znth (c_doc cf2) (s_roff s2)) as [b|]; [|reflexivity]. cbv zeta. destruct (if s_rascii s2 then _ else _); repeat split; exact H.
  - intros c s1 s2 (-> & H). left. unfold skipChar, rdSkipChar, rdr. cbn [rd_doc rd_off rd_end rd_ascii]. rewrite Hdoc.
    destruct (znth (c_doc cf2) (s_roff s2)) as [b|] eqn:E; [|reflexivity]. destruct (c =? b2z b); repeat split; exact H.
  - intros l s1 s2 (-> & H). left. unfold skipCharSeq.
    destruct (end_skipSeq l (rdr cf1 s2) (rdr cf2 s2) Hdoc eq_refl) as [E1 E2].
    destruct (rdSkipCharSeq (rdr cf1 s2) l) as [r1 o1], (rdSkipCharSeq (rdr cf2 s2) l) as [r2 o2]; cbn [fst snd] in *.
    subst o2. rewrite E2. destruct o1; repeat split; exact H.
  - intros o s1 s2 (-> & H). left. unfold fmtCustomLine. rewrite <- Hoff, <- Hdoc. destruct (s_enc s2 <? FormatUtf16BE).
    + destruct (lineScan _ _ _ _ _) as [[l lo]|]; [repeat split; exact H | reflexivity].
    + destruct (lineScan16 _ _ _ _ _ _) as [[l lo]|]; [repeat split; exact H | reflexivity].
Qed.
Ltac weq1 :=
  lazymatch goal with
  | |- sim _ _ (bind (get _) _) _ => apply (sim_getL _ _ _ _ _ _ alike_frameL); intros ? ? ?; cbv beta
  | |- sim _ _ (bind _ _) _ => apply (sim_bind _ _ lost_leaves); [|intros ?; cbv beta]
  | |- sim _ _ (if _ then _ else _) _ => apply sim_if; [reflexivity| |]
  | |- sim _ _ (ret _) _ => apply sim_ret; reflexivity
  | |- sim _ _ (fail _) _ => apply sim_fail; reflexivity
  | |- sim _ _ (modify _) _ => apply sim_modify; alike_set
  | |- sim _ _ (parseErr _ _) _ => eapply sim_parseErr; [exact alike_frame | exact lost_leaves | exact end_prims]
  | |- sim _ _ (skipEitherCase _ _) _ => eapply sim_skipEitherCase; [exact lost_leaves | exact end_prims]
  | |- sim _ _ (matchAt _ _ _) _ => eapply sim_matchAt; [exact lost_leaves | exact end_prims]
  | |- sim _ _ (idx _ _) _ => apply (pr_idx _ _ _ _ _ end_prims)
  | |- sim _ _ (writeVtd _ _ _ _) _ => apply sim_writeVtd, alike_frame
  end.
Ltac weq := repeat weq1.
Lemma end_cannot (k1 k2 : bool -> M unit) : sim alike lost (k1 true) (k2 true) -> sim alike lost (bind cannotSwitch k1) (bind cannotSwitch k2).
Proof.
  intros K s1 s2 H. pose proof H as (-> & E). unfold cannotSwitch. unfold bind, get, ret.
  assert (X : (s_enc s2 <? FormatUtf16BE) || (s_enc s2 =? FormatUtf16LE) || s_mustUtf8 s2 = true) by (unfold FormatUtf16BE, FormatUtf16LE, FormatAscii in *; lia).
  rewrite X. apply K, H.
Qed.
Lemma end_special : special cf1 cf2 alike lost.
Proof.
  apply (special_same _ _ _ _ false alike_frameL lost_leaves end_prims Hns).
  - intros s1 s2 o (-> & _). unfold rdGetLongCharAt, rdr. cbn [rd_doc]. rewrite Hdoc. apply sim_lift. reflexivity.
  - intros s1 s2 o (-> & _). unfold rdGetCharAt, rdr. cbn [rd_doc]. rewrite Hdoc. apply sim_lift. reflexivity.
  - unfold writeStartTag. rewrite Hsh. apply (sim_getL _ _ _ _ _ _ alike_frameL). intros s t H. cbv beta zeta.
    assert (W : forall (b : bool) t o l d, sim alike lost ((if b then writeVtd else writeVtdL5) t o l d) ((if b then writeVtd else writeVtdL5) t o l d)).
    { intros b t' o l d. destruct b; [weq|]. apply alike_same'. unfold writeVtdL5, writeVtd. cbv zeta. steady. }
    weq; apply W.
  - unfold checkAsciiEncoding. apply (sim_bind _ _ lost_leaves); [weq|]. intros b. apply sim_if; [reflexivity | weq |]. apply end_cannot. cbv iota. weq.
  - unfold checkUsAsciiEncoding. apply (sim_bind _ _ lost_leaves); [weq|]. intros b. apply sim_if; [reflexivity | weq |]. apply end_cannot. cbv iota. weq.
Qed.
Lemma end_step ps : ps <> StDocStart -> sim alike lost (step cf1 ps) (step cf2 ps).
Proof. apply (sim_step_but cf1 cf2 alike lost lost false alike_frame lost_leaves lost_errs lost_leaves (fun _ _ _ H => H) end_prims end_special). Qed.

(** A step that succeeds in the shorter window gives the same in the longer one. *)
Definition keeps {A} (m1 m2 : M A) : Prop := forall s a s', alike s s -> m1 s = ROk a s' -> m2 s = ROk a s' /\ alike s' s'.
Lemma sim_keeps {A} (m1 m2 : M A) : sim alike lost m1 m2 -> keeps m1 m2.
Proof.
  intros S s a s' H E. destruct (S s s H) as [M|M]; rewrite E in M; [|contradiction]. destruct (m2 s) as [b t|e t|w|]; cbn in M; try contradiction.
  destruct M as (-> & -> & M). split; [reflexivity|]. split; [reflexivity | exact M].
Qed.

(** The first step turns an error into [StInvalid], which is an error one step later. *)
Lemma keeps_bind {A B} (m1 m2 : M A) (k1 k2 : A -> M B) (I : B -> Prop) : keeps m1 m2 ->
  (forall a s b s', alike s s -> k1 a s = ROk b s' -> I b \/ (k2 a s = ROk b s' /\ alike s' s')) ->
  forall s b s', alike s s -> bind m1 k1 s = ROk b s' -> I b \/ (bind m2 k2 s = ROk b s' /\ alike s' s').
Proof.
  intros H K s b s' L E. unfold bind in *. destruct (m1 s) as [a s1|e s1|w|] eqn:E1; try discriminate E.
  destruct (H s a s1 L E1) as (-> & L1). apply K; assumption.
Qed.
Lemma end_docStart s ps s' : alike s s -> processDocStart cf1 s = ROk ps s' -> ps = StInvalid \/ (processDocStart cf2 s = ROk ps s' /\ alike s' s').
Proof.
  assert (G : forall {A} (f : pst -> A), keeps (get f) (get f)) by (intros A f s0 a s0' L [= <- <-]; split; [reflexivity | exact L]).
  assert (Re : forall {A} (a : A) s b s', alike s s -> ret a s = ROk b s' -> b = b /\ ret a s = ROk b s' /\ alike s' s') by (intros A a s0 b s0' L [= <- <-]; split; [reflexivity|]; split; [reflexivity | exact L]).
  assert (Ma : keeps markLast markLast) by (intros s0 a s0' L [= <- <-]; split; [reflexivity|]; split; [reflexivity | apply L]).
  assert (Mo : forall l, keeps (modify (set_off l)) (modify (set_off l))) by (intros l s0 a s0' L [= <- <-]; split; [reflexivity|]; split; [reflexivity | apply L]).
  assert (RW : forall s ps s', alike s s -> (l <- get s_last;; modify (set_off l);;; ret StLtSeen) s = ROk ps s' ->
     ps = StInvalid \/ ((l <- get s_last;; modify (set_off l);;; ret StLtSeen) s = ROk ps s' /\ alike s' s')).
  { apply (keeps_bind _ _ _ _ (fun ps => ps = StInvalid) (G _ _)). intros l. apply (keeps_bind _ _ _ _ (fun ps => ps = StInvalid) (Mo l)). intros _ s0 b s0' L E. right. apply (proj2 (Re _ _ _ _ _ L E)). }
  revert s ps s'. unfold processDocStart. cbv zeta.
  apply (keeps_bind _ _ _ _ (fun ps => ps = StInvalid)); [apply sim_keeps; eapply sim_nextChar; first [exact alike_frame | exact lost_leaves | exact end_prims]|]. intros _.
  apply (keeps_bind _ _ _ _ (fun ps => ps = StInvalid) (G _ _)). intros c. destruct (c =? CH_LT).
  - apply (keeps_bind _ _ _ _ (fun ps => ps = StInvalid) Ma). intros _.
    apply (keeps_bind _ _ _ _ (fun ps => ps = StInvalid)); [apply sim_keeps; eapply sim_skipXmlDecl; first [exact alike_frame | exact lost_leaves | exact end_prims]|]. intros x. destruct x; [|exact RW].
    apply (keeps_bind _ _ _ _ (fun ps => ps = StInvalid)); [apply sim_keeps; eapply sim_skipOneSpace; first [exact alike_frame | exact lost_leaves | exact end_prims]|]. intros sp. destruct sp.
    + apply (keeps_bind _ _ _ _ (fun ps => ps = StInvalid)); [apply sim_keeps; eapply sim_nextCharAfterWs; first [exact alike_frame | exact lost_leaves | exact end_prims]|]. intros _.
      apply (keeps_bind _ _ _ _ (fun ps => ps = StInvalid) Ma). intros _ s b s' L E. right. apply (proj2 (Re _ _ _ _ _ L E)).
    + apply (keeps_bind _ _ _ _ (fun ps => ps = StInvalid)); [apply sim_keeps, (pr_skipChar _ _ _ _ _ end_prims)|]. intros q. destruct q; [|exact RW].
      intros s b s' _ E. exfalso. revert E. apply parseErr_not.
  - destruct (_ || _); [|intros s b s' _ [= <- _]; left; reflexivity].
    intros s b s' L E. unfold catch in *.
    assert (K : keeps (nextCharAfterWs cf1) (nextCharAfterWs cf2)) by (apply sim_keeps; eapply sim_nextCharAfterWs; first [exact alike_frame | exact lost_leaves | exact end_prims]).
    destruct (nextCharAfterWs cf1 s) as [[] s1|e s1|w|] eqn:E1; try discriminate E; [|injection E as <- _; left; reflexivity].
    destruct (K s tt s1 L E1) as (-> & L1). rewrite bind_get in *. destruct (_ =? _).
    + right. apply (proj2 (Re _ _ _ _ _ L1 E)).
    + injection E as <- _. left. reflexivity.
Qed.
End End.
