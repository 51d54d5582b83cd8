(** Running the parser twice: a relation between the two states that is kept by
    every step of the two runs, for configurations that differ in the
    location-cache depth, in the namespace awareness or in the bytes outside the
    window. *)
From Verif Require Import Lib XmlChar Buffer BufferProofs Reader ParserState ParserPrim ParserProc ParserMain ParserWp.

(** The fields of [s] that are used by every configuration, with the location
    caches and the namespace bookkeeping of [t]. *)
Definition graft (s t : pst) : pst :=
  mkPst (s_off s) (s_roff s) (s_rascii s) (s_last s) (s_len1 s) (s_len2 s) (s_depth s) (s_vtdDepth s) (s_lastDepth t) (s_inc s) (s_rootIndex t) (s_l1i t) (s_l2i t) (s_l3i t) (s_l4i t) (s_attrCount s) (s_prefCount t) (s_attrNames s) (s_prefUrls t) (s_cur s) (s_rec t) (s_defaultNs s) (s_isNs s) (s_isXml t) (s_single s) (s_bom s) (s_mustUtf8 s) (s_helper s) (s_ws s) (s_enc s) (s_vtd s) (s_l1 t) (s_l2 t) (s_l3 t) (s_l4 t) (s_l5 t) (s_ns1 t) (s_ns2 t) (s_ns3 t) (s_tags s) (s_prefNames t).
(** All fields of [s] except for the location caches, which come from [t]. *)
Definition graftL (s t : pst) : pst :=
  mkPst (s_off s) (s_roff s) (s_rascii s) (s_last s) (s_len1 s) (s_len2 s) (s_depth s) (s_vtdDepth s) (s_lastDepth t) (s_inc s) (s_rootIndex t) (s_l1i t) (s_l2i t) (s_l3i t) (s_l4i t) (s_attrCount s) (s_prefCount s) (s_attrNames s) (s_prefUrls s) (s_cur s) (s_rec s) (s_defaultNs s) (s_isNs s) (s_isXml s) (s_single s) (s_bom s) (s_mustUtf8 s) (s_helper s) (s_ws s) (s_enc s) (s_vtd s) (s_l1 t) (s_l2 t) (s_l3 t) (s_l4 t) (s_l5 t) (s_ns1 s) (s_ns2 s) (s_ns3 s) (s_tags s) (s_prefNames s).
(** All fields of [s] except for the namespace bookkeeping, which comes from [t]. *)
Definition graftN (s t : pst) : pst :=
  mkPst (s_off s) (s_roff s) (s_rascii s) (s_last s) (s_len1 s) (s_len2 s) (s_depth s) (s_vtdDepth s) (s_lastDepth s) (s_inc s) (s_rootIndex s) (s_l1i s) (s_l2i s) (s_l3i s) (s_l4i s) (s_attrCount s) (s_prefCount t) (s_attrNames s) (s_prefUrls t) (s_cur s) (s_rec t) (s_defaultNs s) (s_isNs s) (s_isXml t) (s_single s) (s_bom s) (s_mustUtf8 s) (s_helper s) (s_ws s) (s_enc s) (s_vtd s) (s_l1 s) (s_l2 s) (s_l3 s) (s_l4 s) (s_l5 s) (s_ns1 t) (s_ns2 t) (s_ns3 t) (s_tags s) (s_prefNames t).

(** A relation between states that agree on the common fields and may agree or
    not on the others; assigning the same value to a common field keeps it. *)
Record frame (R : pst -> pst -> Prop) : Prop := mkFrame {
  fr_graft : forall s1 s2, R s1 s2 -> s1 = graft s2 s1;
  fr_off : forall v s1 s2, R s1 s2 -> R (set_off v s1) (set_off v s2);
  fr_roff : forall v s1 s2, R s1 s2 -> R (set_roff v s1) (set_roff v s2);
  fr_last : forall v s1 s2, R s1 s2 -> R (set_last v s1) (set_last v s2);
  fr_len1 : forall v s1 s2, R s1 s2 -> R (set_len1 v s1) (set_len1 v s2);
  fr_len2 : forall v s1 s2, R s1 s2 -> R (set_len2 v s1) (set_len2 v s2);
  fr_depth : forall v s1 s2, R s1 s2 -> R (set_depth v s1) (set_depth v s2);
  fr_vtdDepth : forall v s1 s2, R s1 s2 -> R (set_vtdDepth v s1) (set_vtdDepth v s2);
  fr_attrCount : forall v s1 s2, R s1 s2 -> R (set_attrCount v s1) (set_attrCount v s2);
  fr_attrNames : forall v s1 s2, R s1 s2 -> R (set_attrNames v s1) (set_attrNames v s2);
  fr_cur : forall v s1 s2, R s1 s2 -> R (set_cur v s1) (set_cur v s2);
  fr_defaultNs : forall v s1 s2, R s1 s2 -> R (set_defaultNs v s1) (set_defaultNs v s2);
  fr_isNs : forall v s1 s2, R s1 s2 -> R (set_isNs v s1) (set_isNs v s2);
  fr_helper : forall v s1 s2, R s1 s2 -> R (set_helper v s1) (set_helper v s2);
  fr_vtd : forall v s1 s2, R s1 s2 -> R (set_vtd v s1) (set_vtd v s2);
  fr_tags : forall v s1 s2, R s1 s2 -> R (set_tags v s1) (set_tags v s2);
  fr_isXml : forall v s1 s2, R s1 s2 -> R (set_isXml v s1) (set_isXml v s2) }.

(** ** Related results *)
Definition matched {A} (R : pst -> pst -> Prop) (r1 r2 : res A) : Prop :=
  match r1, r2 with
  | ROk a s1, ROk b s2 => a = b /\ R s1 s2
  | RErr e s1, RErr f s2 => e = f /\ R s1 s2
  | RPanic w, RPanic v => w = v
  | RDiverge, RDiverge => True
  | _, _ => False
  end.
Definition bindr {A B} (r : res A) (k : A -> M B) : res B :=
  match r with ROk a s => k a s | RErr e s => RErr e s | RPanic w => RPanic w | RDiverge => RDiverge end.
Definition catchr {A B} (r : res A) (h : goerr -> M B) (k : A -> M B) : res B :=
  match r with ROk a s => k a s | RErr e s => h e s | RPanic w => RPanic w | RDiverge => RDiverge end.

(** A way out for the two runs: a pair of results after which they need not agree. *)
Definition way : Type := forall A, res A -> res A -> Prop.
Definition leaves (esc : way) : Prop := forall A B (r1 r2 : res A) (k1 k2 : A -> M B),
  esc A r1 r2 -> esc B (bindr r1 k1) (bindr r2 k2).
Definition escapes (esc : way) : Prop := forall A B (r1 r2 : res A) (h1 h2 : goerr -> M B) (k1 k2 : A -> M B),
  esc A r1 r2 -> esc B (catchr r1 h1 k1) (catchr r2 h2 k2).

Section Sim.
Variable R : pst -> pst -> Prop.
Variable esc : way.
Hypothesis HR : frame R.
Hypothesis HB : leaves esc.

Definition sim {A} (m1 m2 : M A) : Prop := forall s1 s2, R s1 s2 -> matched R (m1 s1) (m2 s2) \/ esc A (m1 s1) (m2 s2).

Lemma sim_bind {A B} (m1 m2 : M A) (k1 k2 : A -> M B) :
  sim m1 m2 -> (forall a, sim (k1 a) (k2 a)) -> sim (bind m1 k1) (bind m2 k2).
Proof.
  intros H K s1 s2 HS. destruct (H s1 s2 HS) as [E|E].
  - unfold bind. destruct (m1 s1), (m2 s2); cbn in E; try contradiction.
    + destruct E as [-> E]. apply K, E.
    + left. exact E.
    + left. exact E.
    + left. exact I.
  - right. exact (HB _ _ _ _ k1 k2 E).
Qed.
Lemma sim_ret {A} (a b : A) : a = b -> sim (ret a) (ret b).
Proof. intros -> s1 s2 H. left. split; [reflexivity | exact H]. Qed.
Lemma sim_fail {A} e f : e = f -> sim (@fail A e) (fail f).
Proof. intros -> s1 s2 H. left. split; [reflexivity | exact H]. Qed.
Lemma sim_panics {A} w v : w = v -> sim (@panics A w) (panics v).
Proof. intros -> s1 s2 H. left. reflexivity. Qed.
Lemma sim_diverge {A} : sim (@diverge A) diverge.
Proof. intros s1 s2 H. left. exact I. Qed.
Lemma sim_get {A B} (f1 f2 : pst -> A) (k1 k2 : A -> M B) :
  (forall s t, R (graft s t) s -> sim (k1 (f1 (graft s t))) (k2 (f2 s))) -> sim (bind (get f1) k1) (bind (get f2) k2).
Proof.
  intros K s1 s2 H. pose proof (fr_graft _ HR _ _ H) as E. rewrite E. rewrite E in H.
  change (bind (get f1) k1 (graft s2 s1)) with (k1 (f1 (graft s2 s1)) (graft s2 s1)).
  change (bind (get f2) k2 s2) with (k2 (f2 s2) s2). apply K; exact H.
Qed.
Lemma sim_modify f g : (forall s1 s2, R s1 s2 -> R (f s1) (g s2)) -> sim (modify f) (modify g).
Proof. intros K s1 s2 H. left. split; [reflexivity | apply K, H]. Qed.
Lemma sim_if {A} (b1 b2 : bool) (x1 x2 y1 y2 : M A) :
  b1 = b2 -> sim x1 x2 -> sim y1 y2 -> sim (if b1 then x1 else y1) (if b2 then x2 else y2).
Proof. intros -> X Y. destruct b2; assumption. Qed.
Lemma sim_lift {A} (o1 o2 : out A) : o1 = o2 -> sim (lift o1) (lift o2).
Proof.
  intros -> s1 s2 H. left. unfold lift. destruct o2; cbn; [split; [reflexivity | exact H] | split; [reflexivity | exact H] | reflexivity].
Qed.
Lemma sim_appendTo g f v1 v2 : v1 = v2 -> (forall s1 s2, R s1 s2 -> g s1 = g s2) -> (forall b s1 s2, R s1 s2 -> R (f b s1) (f b s2)) ->
  sim (appendTo g f v1) (appendTo g f v2).
Proof.
  intros -> Hg Hf s1 s2 H. left. unfold appendTo. rewrite (Hg s1 s2 H). destruct (bappend (g s2) v2) as [b [[]|e|w]]; cbn; auto.
Qed.
Lemma sim_vtd v1 v2 : v1 = v2 -> sim (appendTo s_vtd set_vtd v1) (appendTo s_vtd set_vtd v2).
Proof.
  intros E. apply sim_appendTo; [exact E | | intros b s1 s2 H; apply (fr_vtd _ HR); exact H].
  intros s1 s2 H. exact (f_equal s_vtd (fr_graft _ HR _ _ H)).
Qed.
Lemma sim_andM a1 a2 b1 b2 : sim a1 a2 -> sim b1 b2 -> sim (andM a1 b1) (andM a2 b2).
Proof. intros A B. apply sim_bind; [exact A|]. intros x. apply sim_if; [reflexivity | exact B | apply sim_ret; reflexivity]. Qed.
Lemma sim_orM a1 a2 b1 b2 : sim a1 a2 -> sim b1 b2 -> sim (orM a1 b1) (orM a2 b2).
Proof. intros A B. apply sim_bind; [exact A|]. intros x. apply sim_if; [reflexivity | apply sim_ret; reflexivity | exact B]. Qed.
End Sim.

Lemma sim_sub R (e1 e2 : way) {A} (m1 m2 : M A) : (forall A r1 r2, e1 A r1 r2 -> e2 A r1 r2) -> sim R e1 m1 m2 -> sim R e2 m1 m2.
Proof. intros H S s1 s2 HS. destruct (S s1 s2 HS) as [E|E]; [left; exact E | right; apply H, E]. Qed.
(** The first computation of a catch must be related strongly. *)
Lemma sim_catch R (e0 e1 : way) {A B} (m1 m2 : M A) (h1 h2 : goerr -> M B) (k1 k2 : A -> M B) :
  escapes e0 -> (forall A r1 r2, e0 A r1 r2 -> e1 A r1 r2) ->
  sim R e0 m1 m2 -> (forall e, sim R e1 (h1 e) (h2 e)) -> (forall a, sim R e1 (k1 a) (k2 a)) ->
  sim R e1 (catch m1 h1 k1) (catch m2 h2 k2).
Proof.
  intros HC HI H Hh Hk s1 s2 HS. destruct (H s1 s2 HS) as [E|E].
  - unfold catch. destruct (m1 s1), (m2 s2); cbn in E; try contradiction.
    + destruct E as [-> E]. apply Hk, E.
    + destruct E as [-> E]. apply Hh, E.
    + left. exact E.
    + left. exact I.
  - right. apply HI. exact (HC _ _ _ _ h1 h2 k1 k2 E).
Qed.

(** The test of process_end_tag.go:16-18 whether the window ends at [o]. *)
Definition endCheck (cf : cfg) (o : Z) : M unit := if c_end cf <=? o then fail (EEof XmlIncomplete) else ret tt.
Lemma endCheck_if cf o {A} (k : M A) s : (if c_end cf <=? o then fail (EEof XmlIncomplete) else k) s = bind (endCheck cf o) (fun _ => k) s.
Proof. unfold endCheck. destruct (c_end cf <=? o); reflexivity. Qed.
Lemma sim_endCheck cf1 cf2 R esc o : c_end cf1 = c_end cf2 -> sim R esc (endCheck cf1 o) (endCheck cf2 o).
Proof. unfold endCheck. intros ->. apply sim_if; [reflexivity | apply sim_fail; reflexivity | apply sim_ret; reflexivity]. Qed.

(** How the primitives that look at the document behave in the two runs. *)
Record prims (cf1 cf2 : cfg) (R : pst -> pst -> Prop) (esc : way) (mono : bool) : Prop := mkPrims {
  pr_off : c_docOffset cf1 = c_docOffset cf2;
  pr_end : forall o, sim R esc (endCheck cf1 o) (endCheck cf2 o);
  pr_fuel : if mono then (fuel cf2 <= fuel cf1)%nat else fuel cf1 = fuel cf2;
  pr_div : mono = true -> forall A r, esc A r RDiverge;
  pr_idx : forall i, sim R esc (idx cf1 i) (idx cf2 i);
  pr_getChar : sim R esc (getChar cf1) (getChar cf2);
  pr_skipChar : forall c, sim R esc (skipChar cf1 c) (skipChar cf2 c);
  pr_skipCharSeq : forall l, sim R esc (skipCharSeq cf1 l) (skipCharSeq cf2 l);
  pr_line : forall o, sim R esc (fmtCustomLine cf1 o) (fmtCustomLine cf2 o) }.

(** Iteration counts: equal, or smaller in the second run when running out of
    them there is a way out. *)
Definition fle (mono : bool) (n1 n2 : nat) : Prop := if mono then (n2 <= n1)%nat else n1 = n2.
Lemma fle_refl mono n : fle mono n n.
Proof. destruct mono; cbn; lia. Qed.

Ltac rel_setter HR :=
  intros;
  first [ assumption
        | eapply (fr_off _ HR); eassumption | eapply (fr_last _ HR); eassumption | eapply (fr_len1 _ HR); eassumption
        | eapply (fr_len2 _ HR); eassumption | eapply (fr_depth _ HR); eassumption | eapply (fr_vtdDepth _ HR); eassumption
        | eapply (fr_attrCount _ HR); eassumption | eapply (fr_cur _ HR); eassumption | eapply (fr_defaultNs _ HR); eassumption
        | eapply (fr_isNs _ HR); eassumption | eapply (fr_helper _ HR); eassumption | eapply (fr_isXml _ HR); eassumption
        | eapply (fr_roff _ HR); eassumption | eapply (fr_tags _ HR); eassumption | eapply (fr_attrNames _ HR); eassumption ].

Section Prim.
Variables cf1 cf2 : cfg.
Variable R : pst -> pst -> Prop.
Variable esc : way.
Variable mono : bool.
Hypothesis HR : frame R.
Hypothesis HB : leaves esc.
Hypothesis HP : prims cf1 cf2 R esc mono.

Lemma fle_fuel : fle mono (fuel cf1) (fuel cf2).
Proof. exact (pr_fuel _ _ _ _ _ HP). Qed.
Lemma fle_S n1 n2 : fle mono (S n1) (S n2) -> fle mono n1 n2.
Proof. unfold fle. destruct mono; lia. Qed.
Lemma sim_out {A} (m : M A) n1 : (n1 <> O -> mono = true) -> sim R esc (match n1 with O => diverge | S _ => m end) diverge.
Proof.
  intros H. destruct n1 as [|n1]; [apply sim_diverge|]. intros s1 s2 HS. right. apply (pr_div _ _ _ _ _ HP), H. discriminate.
Qed.
Lemma sim_div0 {A} (m : M A) n1 : fle mono (S n1) O -> sim R esc m diverge.
Proof. unfold fle. intros H. destruct mono eqn:E; [|discriminate]. intros s1 s2 HS. right. apply (pr_div _ _ _ _ _ HP); first [exact E | reflexivity]. Qed.

Ltac solve_fle := first [apply fle_refl | exact fle_fuel | assumption | apply fle_S; assumption].
Ltac rel1 :=
  lazymatch goal with
  | |- sim _ _ (bind (get _) _) (bind (get _) _) => apply (sim_get _ _ HR); intros ? ? ?; cbv beta
  | |- sim _ _ (bind _ _) (bind _ _) => apply (sim_bind _ _ HB); [|intros ?; cbv beta]
  | |- sim _ _ (ret _) (ret _) => apply sim_ret; reflexivity
  | |- sim _ _ (fail _) (fail _) => apply sim_fail; reflexivity
  | |- sim _ _ (panics _) (panics _) => apply sim_panics; reflexivity
  | |- sim _ _ diverge diverge => apply sim_diverge
  | |- sim _ _ (modify _) (modify _) => apply sim_modify; solve [rel_setter HR]
  | |- sim _ _ (if _ then _ else _) (if _ then _ else _) => apply sim_if; [reflexivity| |]
  | |- sim _ _ (lift _) (lift _) => apply sim_lift; reflexivity
  | |- sim _ _ (andM _ _) (andM _ _) => apply (sim_andM _ _ HB)
  | |- sim _ _ (orM _ _) (orM _ _) => apply (sim_orM _ _ HB)
  | |- sim _ _ (let x := ?v in _) (let y := ?w in _) => change v with w; cbv zeta
  | |- sim _ _ (appendTo s_vtd set_vtd _) _ => apply (sim_vtd _ _ HR); reflexivity
  | |- sim _ _ (match ?x with Some _ => _ | None => _ end) (match ?y with Some _ => _ | None => _ end) => change x with y; destruct y
  | |- sim _ _ _ _ => match goal with IH : forall _, _ |- _ => solve [apply IH; solve_fle] | IH : sim _ _ _ _ |- _ => exact IH end
  end.
Ltac rel := repeat first [ solve [auto 1 with sim nocore] | rel1 ].
Ltac loop_intro := let n1 := fresh "n" in let n2 := fresh "n" in let IH := fresh "IH" in intro n1; induction n1 as [|n1 IH]; intros [|n2]; intros; [apply sim_diverge | exfalso; unfold fle in *; destruct mono; lia | eapply sim_div0; eassumption |
  match goal with H : fle mono (S _) (S _) |- _ => apply fle_S in H end].

Local Hint Extern 0 (sim _ _ (idx _ _) _) => apply (pr_idx _ _ _ _ _ HP) : sim.
Local Hint Extern 0 (sim _ _ (getChar _) _) => apply (pr_getChar _ _ _ _ _ HP) : sim.
Local Hint Extern 0 (sim _ _ (skipChar _ _) _) => apply (pr_skipChar _ _ _ _ _ HP) : sim.
Local Hint Extern 0 (sim _ _ (skipCharSeq _ _) _) => apply (pr_skipCharSeq _ _ _ _ _ HP) : sim.
Local Hint Extern 0 (sim _ _ (fmtCustomLine _ _) _) => apply (pr_line _ _ _ _ _ HP) : sim.

Lemma sim_parseErr {A} m : sim R esc (@parseErr cf1 A m) (parseErr cf2 m).
Proof. unfold parseErr, fmtLine. rel. Qed.
Local Hint Extern 0 (sim _ _ (parseErr _ _) _) => apply sim_parseErr : sim.
Lemma sim_parseErrAt {A} m o : sim R esc (@parseErrAt cf1 A m o) (parseErrAt cf2 m o).
Proof. unfold parseErrAt. rel. Qed.
Local Hint Extern 0 (sim _ _ (parseErrAt _ _ _) _) => apply sim_parseErrAt : sim.
Lemma sim_setOffset : forall o, sim R esc (setOffset o) (setOffset o).
Proof.
  intros o s1 s2 H. left. split; [reflexivity|]. pose proof (fr_graft _ HR _ _ H) as E. rewrite E. rewrite E in H.
  change (s_off (graft s2 s1)) with (s_off s2).
  apply (fr_off _ HR), (fr_last _ HR), (fr_roff _ HR), H.
Qed.

Local Hint Extern 0 (sim _ _ (setOffset _) _) => apply sim_setOffset : sim.
Lemma sim_skipCharSeqIgnoreCase : forall l, sim R esc (skipCharSeqIgnoreCase cf1 l) (skipCharSeqIgnoreCase cf2 l).
Proof. intros l. induction l as [|c l IH]; intros; cbn [skipCharSeqIgnoreCase]; rel. Qed.
Local Hint Extern 0 (sim _ _ (skipCharSeqIgnoreCase _ _) _) => apply sim_skipCharSeqIgnoreCase : sim.
Lemma sim_nextChar : sim R esc (nextChar cf1) (nextChar cf2).
Proof. unfold nextChar. rel. Qed.
Local Hint Extern 0 (sim _ _ (nextChar _) _) => apply sim_nextChar : sim.
Lemma sim_nextCharAfterWsLoop : forall n1 n2, fle mono n1 n2 -> sim R esc (nextCharAfterWsLoop cf1 n1) (nextCharAfterWsLoop cf2 n2).
Proof. loop_intro. cbn [nextCharAfterWsLoop]. rel. Qed.
Local Hint Extern 0 (sim _ _ (nextCharAfterWsLoop _ _) _) => apply sim_nextCharAfterWsLoop; solve_fle : sim.
Lemma sim_nextCharAfterWs : sim R esc (nextCharAfterWs cf1) (nextCharAfterWs cf2).
Proof. unfold nextCharAfterWs. rel. Qed.
Local Hint Extern 0 (sim _ _ (nextCharAfterWs _) _) => apply sim_nextCharAfterWs : sim.
Lemma sim_writeVtd : forall t o l d, sim R esc (writeVtd t o l d) (writeVtd t o l d).
Proof. intros. unfold writeVtd. rel. Qed.
Local Hint Extern 0 (sim _ _ (writeVtd _ _ _ _) _) => apply sim_writeVtd : sim.
Lemma sim_writeVtdTextLoop : forall n1 n2 t o l d, fle mono n1 n2 -> sim R esc (writeVtdTextLoop n1 t o l d) (writeVtdTextLoop n2 t o l d).
Proof. loop_intro. cbn [writeVtdTextLoop]. rel. Qed.
Local Hint Extern 0 (sim _ _ (writeVtdTextLoop _ _ _ _ _) _) => apply sim_writeVtdTextLoop; solve_fle : sim.
Lemma sim_writeVtdText : forall t o l d, sim R esc (writeVtdText t o l d) (writeVtdText t o l d).
Proof. intros. unfold writeVtdText. rel. Qed.
Local Hint Extern 0 (sim _ _ (writeVtdText _ _ _ _) _) => apply sim_writeVtdText : sim.
Lemma sim_writeVtdWithLengthCheck : forall t m, sim R esc (writeVtdWithLengthCheck cf1 t m) (writeVtdWithLengthCheck cf2 t m).
Proof. intros. unfold writeVtdWithLengthCheck. rel. Qed.
Local Hint Extern 0 (sim _ _ (writeVtdWithLengthCheck _ _ _) _) => apply sim_writeVtdWithLengthCheck : sim.
Lemma sim_prevUtf8 : forall n1 n2 o, fle mono n1 n2 -> sim R esc (prevUtf8 cf1 n1 o) (prevUtf8 cf2 n2 o).
Proof. loop_intro. cbn [prevUtf8]. rel. Qed.
Local Hint Extern 0 (sim _ _ (prevUtf8 _ _ _) _) => apply sim_prevUtf8; solve_fle : sim.
Lemma sim_getPrevOffset : sim R esc (getPrevOffset cf1) (getPrevOffset cf2).
Proof. unfold getPrevOffset. rel. Qed.
Local Hint Extern 0 (sim _ _ (getPrevOffset _) _) => apply sim_getPrevOffset : sim.
Lemma sim_matchAt : forall l o, sim R esc (matchAt cf1 o l) (matchAt cf2 o l).
Proof. induction l as [|c l IH]; intros o; cbn [matchAt]; rel. Qed.
Local Hint Extern 0 (sim _ _ (matchAt _ _ _) _) => apply sim_matchAt : sim.
Lemma sim_checkXmlPrefix : forall o l b, sim R esc (checkXmlPrefix cf1 o l b) (checkXmlPrefix cf2 o l b).
Proof. intros. unfold checkXmlPrefix. rel. Qed.
Local Hint Extern 0 (sim _ _ (checkXmlPrefix _ _ _ _) _) => apply sim_checkXmlPrefix : sim.
Lemma sim_checkXmlnsPrefix : forall o l b, sim R esc (checkXmlnsPrefix cf1 o l b) (checkXmlnsPrefix cf2 o l b).
Proof. intros. unfold checkXmlnsPrefix. rel. Qed.
Local Hint Extern 0 (sim _ _ (checkXmlnsPrefix _ _ _ _) _) => apply sim_checkXmlnsPrefix : sim.
Lemma sim_matchBytes : forall n a b j, sim R esc (matchBytes cf1 n a b j) (matchBytes cf2 n a b j).
Proof. induction n as [|n IH]; intros a b j; cbn [matchBytes]; rel. Qed.
Local Hint Extern 0 (sim _ _ (matchBytes _ _ _ _ _) _) => apply sim_matchBytes : sim.
Lemma sim_recordWhiteSpace : sim R esc (recordWhiteSpace) (recordWhiteSpace).
Proof. unfold recordWhiteSpace. rel. Qed.
Local Hint Extern 0 (sim _ _ (recordWhiteSpace) _) => apply sim_recordWhiteSpace : sim.
Lemma sim_entSeq : forall l, sim R esc (entSeq cf1 l) (entSeq cf2 l).
Proof. intros l. induction l as [|c l IH]; intros; cbn [entSeq]; rel. Qed.
Local Hint Extern 0 (sim _ _ (entSeq _ _) _) => apply sim_entSeq : sim.
Lemma sim_entHex : forall n1 n2 v, fle mono n1 n2 -> sim R esc (entHex cf1 n1 v) (entHex cf2 n2 v).
Proof. loop_intro. cbn [entHex]. rel. Qed.
Local Hint Extern 0 (sim _ _ (entHex _ _ _) _) => apply sim_entHex; solve_fle : sim.
Lemma sim_entDec : forall n1 n2 c v, fle mono n1 n2 -> sim R esc (entDec cf1 n1 c v) (entDec cf2 n2 c v).
Proof. loop_intro. cbn [entDec]. rel. Qed.
Local Hint Extern 0 (sim _ _ (entDec _ _ _ _) _) => apply sim_entDec; solve_fle : sim.
Lemma sim_entityIdentifier : sim R esc (entityIdentifier cf1) (entityIdentifier cf2).
Proof. unfold entityIdentifier. rel. Qed.
Local Hint Extern 0 (sim _ _ (entityIdentifier _) _) => apply sim_entityIdentifier : sim.
Lemma sim_skipRbrLoop : forall n1 n2, fle mono n1 n2 -> sim R esc (skipRbrLoop cf1 n1) (skipRbrLoop cf2 n2).
Proof. loop_intro. cbn [skipRbrLoop]. rel. Qed.
Local Hint Extern 0 (sim _ _ (skipRbrLoop _ _) _) => apply sim_skipRbrLoop; solve_fle : sim.
Lemma sim_skipRbr : sim R esc (skipRbr cf1) (skipRbr cf2).
Proof. unfold skipRbr. rel. Qed.
Local Hint Extern 0 (sim _ _ (skipRbr _) _) => apply sim_skipRbr : sim.
Lemma sim_handleOtherTextChar : forall c, sim R esc (handleOtherTextChar cf1 c) (handleOtherTextChar cf2 c).
Proof. intros. unfold handleOtherTextChar. rel. Qed.
Local Hint Extern 0 (sim _ _ (handleOtherTextChar _ _) _) => apply sim_handleOtherTextChar : sim.
Lemma sim_validateSeqLoop : forall m l, sim R esc (validateSeqLoop cf1 m l) (validateSeqLoop cf2 m l).
Proof. intros m. induction l as [|c l IH]; cbn [validateSeqLoop]; rel. Qed.
Local Hint Extern 0 (sim _ _ (validateSeqLoop _ _ _) _) => apply sim_validateSeqLoop : sim.
Lemma sim_validateSeq : forall m, sim R esc (validateSeq cf1 m) (validateSeq cf2 m).
Proof. intros. unfold validateSeq. rel. Qed.
Local Hint Extern 0 (sim _ _ (validateSeq _ _) _) => apply sim_validateSeq : sim.
Lemma sim_getNextProcessStateFromChar : forall c, sim R esc (getNextProcessStateFromChar cf1 c) (getNextProcessStateFromChar cf2 c).
Proof. intros. unfold getNextProcessStateFromChar. rel. Qed.
Local Hint Extern 0 (sim _ _ (getNextProcessStateFromChar _ _) _) => apply sim_getNextProcessStateFromChar : sim.
(** The state functions that do not depend on the namespace mode. *)
Lemma sim_writeTextHere : forall t, sim R esc (writeTextHere t) (writeTextHere t).
Proof. intros. unfold writeTextHere. rel. Qed.
Local Hint Extern 0 (sim _ _ (writeTextHere _) _) => apply sim_writeTextHere : sim.
Lemma sim_writeEmptyPiVal : sim R esc (writeEmptyPiVal) (writeEmptyPiVal).
Proof. unfold writeEmptyPiVal. rel. Qed.
Local Hint Extern 0 (sim _ _ (writeEmptyPiVal) _) => apply sim_writeEmptyPiVal : sim.
Lemma sim_markLast : sim R esc (markLast) (markLast).
Proof. unfold markLast. rel. Qed.
Local Hint Extern 0 (sim _ _ (markLast) _) => apply sim_markLast : sim.
Lemma sim_processElementTail : sim R esc (processElementTail cf1) (processElementTail cf2).
Proof. unfold processElementTail. rel. Qed.
Local Hint Extern 0 (sim _ _ (processElementTail _) _) => apply sim_processElementTail : sim.
Lemma sim_setTag : forall i v, sim R esc (setTag i v) (setTag i v).
Proof.
  intros i v s1 s2 H. left. unfold setTag. pose proof (fr_graft _ HR _ _ H) as E. rewrite E. rewrite E in H.
  change (s_tags (graft s2 s1)) with (s_tags s2).
  destruct (zupd (s_tags s2) i v); [|reflexivity]. split; [reflexivity | apply (fr_tags _ HR), H].
Qed.
Local Hint Extern 0 (sim _ _ (setTag _ _) _) => apply sim_setTag : sim.
Lemma sim_endTagCompare : forall n a b, sim R esc (endTagCompare cf1 n a b) (endTagCompare cf2 n a b).
Proof. induction n as [|n IH]; intros a b; cbn [endTagCompare]; rel. Qed.
Local Hint Extern 0 (sim _ _ (endTagCompare _ _ _ _) _) => apply sim_endTagCompare : sim.
Lemma sim_processEndTag : sim R esc (processEndTag cf1) (processEndTag cf2).
Proof.
  unfold processEndTag. rel. intros s1 s2 K. rewrite !endCheck_if. revert s1 s2 K.
  match goal with |- forall s1 s2, R s1 s2 -> matched R (?m1 s1) (?m2 s2) \/ esc _ (?m1 s1) (?m2 s2) => change (sim R esc m1 m2) end.
  apply (sim_bind _ _ HB); [apply (pr_end _ _ _ _ _ HP)|]. intros []. rel.
Qed.
Local Hint Extern 0 (sim _ _ (processEndTag _) _) => apply sim_processEndTag : sim.
Lemma sim_isXmlTarget : forall c, sim R esc (isXmlTarget cf1 c) (isXmlTarget cf2 c).
Proof. intros. unfold isXmlTarget. rel. Qed.
Local Hint Extern 0 (sim _ _ (isXmlTarget _ _) _) => apply sim_isXmlTarget : sim.
Lemma sim_textLoop : forall n1 n2, fle mono n1 n2 -> sim R esc (textLoop cf1 n1) (textLoop cf2 n2).
Proof. loop_intro. cbn [textLoop]. rel. Qed.
Local Hint Extern 0 (sim _ _ (textLoop _ _) _) => apply sim_textLoop; solve_fle : sim.
Lemma sim_processText : sim R esc (processText cf1) (processText cf2).
Proof. unfold processText. rel. Qed.
Local Hint Extern 0 (sim _ _ (processText _) _) => apply sim_processText : sim.
Lemma sim_cdataLoop : forall n1 n2, fle mono n1 n2 -> sim R esc (cdataLoop cf1 n1) (cdataLoop cf2 n2).
Proof. loop_intro. cbn [cdataLoop]. rel. Qed.
Local Hint Extern 0 (sim _ _ (cdataLoop _ _) _) => apply sim_cdataLoop; solve_fle : sim.
Lemma sim_processCdata : sim R esc (processCdata cf1) (processCdata cf2).
Proof. unfold processCdata. rel. Qed.
Local Hint Extern 0 (sim _ _ (processCdata _) _) => apply sim_processCdata : sim.
Lemma sim_commentLoop : forall n1 n2, fle mono n1 n2 -> sim R esc (commentLoop cf1 n1) (commentLoop cf2 n2).
Proof. loop_intro. cbn [commentLoop]. rel. Qed.
Local Hint Extern 0 (sim _ _ (commentLoop _ _) _) => apply sim_commentLoop; solve_fle : sim.
Lemma sim_processStartComment : sim R esc (processStartComment cf1) (processStartComment cf2).
Proof. unfold processStartComment. rel. Qed.
Local Hint Extern 0 (sim _ _ (processStartComment _) _) => apply sim_processStartComment : sim.
Lemma sim_processEndComment : sim R esc (processEndComment cf1) (processEndComment cf2).
Proof. unfold processEndComment. rel. Qed.
Local Hint Extern 0 (sim _ _ (processEndComment _) _) => apply sim_processEndComment : sim.
Lemma sim_processDocEnd : sim R esc (processDocEnd cf1) (processDocEnd cf2).
Proof. unfold processDocEnd. rel. Qed.
Local Hint Extern 0 (sim _ _ (processDocEnd _) _) => apply sim_processDocEnd : sim.
Lemma sim_skipXmlDecl : sim R esc (skipXmlDecl cf1) (skipXmlDecl cf2).
Proof. unfold skipXmlDecl. rel. Qed.
Local Hint Extern 0 (sim _ _ (skipXmlDecl _) _) => apply sim_skipXmlDecl : sim.
Lemma sim_skipOneSpace : sim R esc (skipOneSpace cf1) (skipOneSpace cf2).
Proof. unfold skipOneSpace. rel. Qed.
Local Hint Extern 0 (sim _ _ (skipOneSpace _) _) => apply sim_skipOneSpace : sim.
Lemma sim_docTypeLoop : forall n1 n2 z, fle mono n1 n2 -> sim R esc (docTypeLoop cf1 n1 z) (docTypeLoop cf2 n2 z).
Proof. loop_intro. cbn [docTypeLoop]. rel. Qed.
Local Hint Extern 0 (sim _ _ (docTypeLoop _ _ _) _) => apply sim_docTypeLoop; solve_fle : sim.
Lemma sim_processDocType : sim R esc (processDocType cf1) (processDocType cf2).
Proof. unfold processDocType. rel. Qed.
Local Hint Extern 0 (sim _ _ (processDocType _) _) => apply sim_processDocType : sim.
Lemma sim_piNameLoop : forall n1 n2, fle mono n1 n2 -> sim R esc (piNameLoop cf1 n1) (piNameLoop cf2 n2).
Proof. loop_intro. cbn [piNameLoop]. rel. Qed.
Local Hint Extern 0 (sim _ _ (piNameLoop _ _) _) => apply sim_piNameLoop; solve_fle : sim.
Lemma sim_processPiTag : sim R esc (processPiTag cf1) (processPiTag cf2).
Proof. unfold processPiTag. rel. Qed.
Local Hint Extern 0 (sim _ _ (processPiTag _) _) => apply sim_processPiTag : sim.
Lemma sim_piValLoop : forall n1 n2, fle mono n1 n2 -> sim R esc (piValLoop cf1 n1) (piValLoop cf2 n2).
Proof. loop_intro. cbn [piValLoop]. rel. Qed.
Local Hint Extern 0 (sim _ _ (piValLoop _ _) _) => apply sim_piValLoop; solve_fle : sim.
Lemma sim_processPiVal : sim R esc (processPiVal cf1) (processPiVal cf2).
Proof. unfold processPiVal. rel. Qed.
Local Hint Extern 0 (sim _ _ (processPiVal _) _) => apply sim_processPiVal : sim.
Lemma sim_piEndNameLoop : forall n1 n2, fle mono n1 n2 -> sim R esc (piEndNameLoop cf1 n1) (piEndNameLoop cf2 n2).
Proof. loop_intro. cbn [piEndNameLoop]. rel. Qed.
Local Hint Extern 0 (sim _ _ (piEndNameLoop _ _) _) => apply sim_piEndNameLoop; solve_fle : sim.
Lemma sim_piEndValLoop : forall n1 n2, fle mono n1 n2 -> sim R esc (piEndValLoop cf1 n1) (piEndValLoop cf2 n2).
Proof. loop_intro. cbn [piEndValLoop]. rel. Qed.
Local Hint Extern 0 (sim _ _ (piEndValLoop _ _) _) => apply sim_piEndValLoop; solve_fle : sim.
Lemma sim_processPiEnd : sim R esc (processPiEnd cf1) (processPiEnd cf2).
Proof. unfold processPiEnd. rel. Qed.
Local Hint Extern 0 (sim _ _ (processPiEnd _) _) => apply sim_processPiEnd : sim.
Lemma sim_attrNameLoop : forall n1 n2, fle mono n1 n2 -> sim R esc (attrNameLoop cf1 n1) (attrNameLoop cf2 n2).
Proof. loop_intro. cbn [attrNameLoop]. rel. Qed.
Local Hint Extern 0 (sim _ _ (attrNameLoop _ _) _) => apply sim_attrNameLoop; solve_fle : sim.
Lemma sim_attrUniqueLoop : forall n i, sim R esc (attrUniqueLoop cf1 n i) (attrUniqueLoop cf2 n i).
Proof. induction n as [|n IH]; intros i; cbn [attrUniqueLoop]; rel. Qed.
Local Hint Extern 0 (sim _ _ (attrUniqueLoop _ _ _) _) => apply sim_attrUniqueLoop : sim.
Lemma sim_storeAttrName : sim R esc storeAttrName storeAttrName.
Proof.
  intros s1 s2 H. left. unfold storeAttrName. pose proof (fr_graft _ HR _ _ H) as E. rewrite E. rewrite E in H. 
  change (s_attrNames (graft s2 s1)) with (s_attrNames s2). change (s_attrCount (graft s2 s1)) with (s_attrCount s2).
  change (s_last (graft s2 s1)) with (s_last s2). change (s_len1 (graft s2 s1)) with (s_len1 s2).
  destruct (zupd _ _ _) as [l|]; [|reflexivity]. split; [reflexivity|]. apply (fr_attrCount _ HR), (fr_attrNames _ HR), H.
Qed.
Local Hint Extern 0 (sim _ _ (storeAttrName) _) => apply sim_storeAttrName : sim.
Lemma sim_attrNameXmlns : sim R esc (attrNameXmlns cf1) (attrNameXmlns cf2).
Proof. unfold attrNameXmlns. rel. Qed.
Local Hint Extern 0 (sim _ _ (attrNameXmlns _) _) => apply sim_attrNameXmlns : sim.
Lemma sim_attrValLoop : forall n1 n2 q, fle mono n1 n2 -> sim R esc (attrValLoop cf1 n1 q) (attrValLoop cf2 n2 q).
Proof. loop_intro. cbn [attrValLoop]. rel. Qed.
Local Hint Extern 0 (sim _ _ (attrValLoop _ _ _) _) => apply sim_attrValLoop; solve_fle : sim.
Lemma sim_writeDec : forall t l, sim R esc (writeDec t l) (writeDec t l).
Proof. intros. unfold writeDec. rel. Qed.
Local Hint Extern 0 (sim _ _ (writeDec _ _) _) => apply sim_writeDec : sim.
Lemma sim_skipEitherCase : forall l, sim R esc (skipEitherCase cf1 l) (skipEitherCase cf2 l).
Proof. intros. unfold skipEitherCase. rel. Qed.
Local Hint Extern 0 (sim _ _ (skipEitherCase _ _) _) => apply sim_skipEitherCase : sim.
Lemma sim_cannotSwitch : sim R esc (cannotSwitch) (cannotSwitch).
Proof. unfold cannotSwitch. rel. Qed.
Local Hint Extern 0 (sim _ _ (cannotSwitch) _) => apply sim_cannotSwitch : sim.
Lemma sim_checkIsoEncoding : sim R esc (checkIsoEncoding cf1) (checkIsoEncoding cf2).
Proof. unfold checkIsoEncoding. rel. Qed.
Local Hint Extern 0 (sim _ _ (checkIsoEncoding _) _) => apply sim_checkIsoEncoding : sim.
Lemma sim_checkUtfEncoding : sim R esc (checkUtfEncoding cf1) (checkUtfEncoding cf2).
Proof. unfold checkUtfEncoding. rel. Qed.
Local Hint Extern 0 (sim _ _ (checkUtfEncoding _) _) => apply sim_checkUtfEncoding : sim.
Lemma sim_checkWinEncoding : forall r l m, sim R esc (checkWinEncoding cf1 r l m) (checkWinEncoding cf2 r l m).
Proof. intros. unfold checkWinEncoding. rel. Qed.
Local Hint Extern 0 (sim _ _ (checkWinEncoding _ _ _ _) _) => apply sim_checkWinEncoding : sim.
Lemma sim_checkCpEncoding : sim R esc (checkCpEncoding cf1) (checkCpEncoding cf2).
Proof. unfold checkCpEncoding. rel. Qed.
Local Hint Extern 0 (sim _ _ (checkCpEncoding _) _) => apply sim_checkCpEncoding : sim.
Lemma sim_checkWindowsEncoding : sim R esc (checkWindowsEncoding cf1) (checkWindowsEncoding cf2).
Proof. unfold checkWindowsEncoding. rel. Qed.
Local Hint Extern 0 (sim _ _ (checkWindowsEncoding _) _) => apply sim_checkWindowsEncoding : sim.
Lemma sim_processDecStandaloneAttr : sim R esc (processDecStandaloneAttr cf1) (processDecStandaloneAttr cf2).
Proof. unfold processDecStandaloneAttr. rel. Qed.
Local Hint Extern 0 (sim _ _ (processDecStandaloneAttr _) _) => apply sim_processDecStandaloneAttr : sim.
Lemma sim_decVersionName : sim R esc (decVersionName cf1) (decVersionName cf2).
Proof. unfold decVersionName. rel. Qed.
Local Hint Extern 0 (sim _ _ (decVersionName _) _) => apply sim_decVersionName : sim.
Lemma sim_decEnd : sim R esc (decEnd cf1) (decEnd cf2).
Proof. unfold decEnd. rel. Qed.
Local Hint Extern 0 (sim _ _ (decEnd _) _) => apply sim_decEnd : sim.
End Prim.
