(** Windows that end before the buffer does: which documents are accepted. *)
From Verif Require Import Lib XmlChar XmlCharProofs Buffer BufferProofs Reader ParserState ParserPrim ParserProc ParserMain
  SpecParse SpecChar SpecDoc ParserWp ParserInv ParserInvTag ParserInvMain TokenProofs SpecToken DocScan DocBase DocGap DocTag DocItem DocBody DocStart DocMain DocEpilog.
From Verif Require Import SpecWindow.
From Verif Require Import ParserOutcome.
From Verif Require ParserRel ParserRelMain RelWindow RelEnd.
Import ParserRel RelWindow RelEnd.

(** ** Runs up to the end of the root element *)
Inductive run (cf : cfg) : nat -> pstate -> pst -> nat -> pst -> Prop :=
| run_end n s : run cf n StDocEnd s n s
| run_step n ps s ps1 s1 n' s' : ps <> StDocEnd -> step cf ps s = ROk ps1 s1 -> run cf n ps1 s1 n' s' -> run cf (S n) ps s n' s'.
Lemma run_loop cf fin n ps s n' s' : run cf n ps s n' s' -> loop cf fin n ps s = fin n' s'.
Proof.
  induction 1 as [n s|n ps s ps1 s1 n' s' N E _ IH]; [destruct n; reflexivity|].
  rewrite (loop_step cf fin n ps s N), (andThen_ok cf fin _ _ _ _ _ E). exact IH.
Qed.
Lemma loop_run cf fin n : forall ps s sf, loop cf fin n ps s = ROk tt sf -> exists n' s', run cf n ps s n' s' /\ fin n' s' = ROk tt sf.
Proof.
  induction n as [|n IH]; intros ps s sf K; (destruct (isDocEnd ps) eqn:D; [destruct ps; try discriminate D; eexists _, s; split; [apply run_end | exact K]|]);
    assert (N : ps <> StDocEnd) by (intros ->; discriminate D).
  - rewrite (loop_O cf fin ps s N) in K. discriminate K.
  - destruct (DocBase.loop_inv cf fin _ _ _ _ N K) as (n1 & ps1 & s1 & [= <-] & E & K1). destruct (IH _ _ _ K1) as (n' & s' & R & F).
    exists n', s'. split; [eapply run_step; eassumption | exact F].
Qed.
(** No run of a sound state diverges. *)
Section Inv.
Variable cf : cfg.
Hypothesis Hdo : 0 <= c_docOffset cf.
Hypothesis Hend : 0 <= c_end cf <= zlen (c_doc cf).
Hypothesis Hend31 : c_end cf < 2^31.
Lemma step_post ps s ps' s' : Inv cf ps s -> step cf ps s = ROk ps' s' -> postStep cf ps s ps' s'.
Proof. intros H E. pose proof (wp_step cf Hdo Hend Hend31 ps s H) as W. unfold wp in W. rewrite E in W. exact W. Qed.
Lemma run_inv n ps s n' s' : run cf n ps s n' s' -> Inv cf ps s -> ps <> StPiEnd -> (ps = StDocEnd -> s_roff s <= c_end cf) ->
  zlen (c_doc cf) - s_roff s < Z.of_nat n ->
  Inv cf StDocEnd s' /\ s_roff s' <= c_end cf /\ zlen (c_doc cf) - s_roff s' < Z.of_nat n'.
Proof.
  induction 1 as [n s|n ps s ps1 s1 n' s' N E _ IH]; intros HI NP HB L; [auto|].
  destruct (step_post _ _ _ _ HI E) as (HI1 & R & U). apply IH; [exact HI1 | | | lia].
  - intros ->. congruence.
  - intros ->. destruct (isPiEnd ps) eqn:X; [destruct ps; try discriminate X; congruence | exact U].
Qed.
End Inv.

(** ** The same run in the window that ends with the buffer *)
Definition wide (cf : cfg) : cfg := mkCfg (c_doc cf) (c_docOffset cf) (c_docLength cf) (zlen (c_doc cf)) (c_ns cf) (c_shallow cf).
Section Wide.
Variable cf : cfg.
Notation doc := (c_doc cf).
Hypothesis Hdo : 0 <= c_docOffset cf.
Hypothesis Hend : 0 <= c_end cf <= zlen doc.
Hypothesis HD : zlen doc < 2^31.
Context {Nv : nsview}.
Lemma wide_step ps : ps <> StDocStart -> keeps (step cf ps) (step (wide cf) ps).
Proof. intros N. apply sim_keeps, end_step; try reflexivity; [cbn [wide c_end]; lia | exact N]. Qed.
Lemma run_wide n ps s n' s' : run cf n ps s n' s' -> alike s s -> run (wide cf) n ps s n' s' /\ alike s' s'.
Proof.
  induction 1 as [n s|n ps s ps1 s1 n' s' N E R IH]; intros A; [split; [apply run_end | exact A]|].
  assert (X : step (wide cf) ps s = ROk ps1 s1 /\ alike s1 s1).
  { assert (D : ps = StDocStart \/ ps <> StDocStart) by (destruct ps; first [left; reflexivity | right; discriminate]). destruct D as [->|D]; [|apply (wide_step ps D _ _ _ A E)].
    destruct (end_docStart cf (wide cf) eq_refl eq_refl ltac:(cbn [wide c_end]; lia) s ps1 s1 A E) as [->|X]; [|exact X].
    exfalso. inversion R as [|? ? ? ? ? ? ? N2 E2]; subst. cbn [step] in E2. revert E2. apply parseErr_not. }
  destruct X as (E1 & A1). destruct (IH A1) as (R1 & A2). split; [eapply run_step; eassumption | exact A2].
Qed.

Local Notation At := (DocScan.At cf).
Local Notation At_app := (DocScan.At_app cf).
Local Notation Ended := (DocBody.Ended cf).
Local Notation Final := (DocBody.Final cf).
Local Notation epi_inv := (DocBody.epi_inv (wide cf) eq_refl HD).
Local Notation epi_ok := (DocBody.epi_ok (wide cf) eq_refl HD).
Local Notation commentLoop_ok := (DocScan.commentLoop_ok (wide cf) eq_refl).
Local Notation commentLoop_inv := (DocScan.commentLoop_inv (wide cf) eq_refl).
Lemma epilogIn_inv n : forall p ts l s sf, Inv cf StDocEnd s -> Ended p ts s -> At p l -> upTo cf s -> parseLoop cf n StDocEnd s = ROk tt sf ->
  exists es w r, l = render_epilog es w ++ r /\ wfx es w r /\ ends_at cf p es w.
Proof.
  induction n as [n IH] using lt_wf_ind. intros p ts l s sf HI HS H HU K. pose proof HS as (Q & Po & Pr). pose proof Q as ((B1 & _ & _ & B4 & _) & _).
  assert (A : alike s s) by (split; [reflexivity | left; exact B4]).
  destruct (Z.le_gt_cases (c_end cf) p) as [LP|LP]; [exists [], [], l; split; [reflexivity|]; split; [reflexivity|]; right; left; auto|].
  destruct (blank_split (firstn (Z.to_nat (c_end cf - p)) l)) as (w & y & E & Hw & Hy).
  assert (LL : zlen l = zlen doc - p) by (apply At_len in H; lia).
  assert (LF : zlen (firstn (Z.to_nat (c_end cf - p)) l) = c_end cf - p) by (unfold zlen in *; rewrite firstn_length; lia).
  rewrite <- (firstn_skipn (Z.to_nat (c_end cf - p)) l) in H |- *. set (r2 := skipn _ l) in *. rewrite E in H, LF |- *.
  destruct Hy as [->|(c & r1 & -> & Hc)].
  { rewrite app_nil_r in *. exists [], w, r2. split; [reflexivity|]. split; [exact Hw|]. left. cbn [render_epilog]. lia. }
  rewrite zlen_app, zlen_cons in LF. pose proof (zlen_nonneg r1) as Lr1. rewrite <- app_assoc in H |- *. cbn [app] in H |- *. set (r := r1 ++ r2) in *. clearbody r. clear E.
  destruct n as [|n]; [discriminate|]. cbn [parseLoop step isDocEnd] in K. unfold catch at 1 in K.
  pose proof H as H0. rewrite <- Pr in H. pose proof (nextIn_ok cf s w c r B1 H Hw Hc ltac:(lia)) as EW.
  pose proof (At_app_cons cf _ _ _ _ H) as H1. rewrite Pr in H1, EW.
  assert (NE : forall e s1, processDocEnd cf s = RErr e s1 -> as_eof e = false).
  { unfold processDocEnd. rewrite (bind_ok _ _ _ _ _ EW). run. intros e s1.
    destruct (b2z c =? CH_LT); [|apply parseErr_eof].
    unfold bind at 1. set (s2 := adv _ _ s). destruct r as [|b r]; [rewrite (skipChar_nil cf s2 _ H1); discriminate|].
    rewrite (skipChar_cons cf s2 b r _ H1). destruct (CH_QM =? b2z b); [discriminate|].
    unfold bind at 1. destruct (skipCharSeq cf (codes "!--") _) as [[|] s3|e' s3|w'|] eqn:E; try discriminate.
    - apply parseErr_eof.
    - elim (skipSeq_noErr cf _ _ _ _ E). }
  destruct (processDocEnd cf s) as [ps s1|e s1|w'|] eqn:EP; try discriminate.
  2: { rewrite (NE e s1 eq_refl) in K. discriminate. }
  destruct (step_post cf Hdo Hend ltac:(lia) StDocEnd s ps s1 HI EP) as (HI1 & _ & _).
  destruct (wide_step StDocEnd ltac:(discriminate) s ps s1 A EP) as (_ & A1).
  unfold processDocEnd in EP. rewrite (bind_ok _ _ _ _ _ EW) in EP. run_in EP.
  destruct (b2z c =? CH_LT) eqn:Ec; [|exfalso; revert EP; apply parseErr_not]. change CH_LT with 60 in Ec. bytes.
  eapply (inv_skip cf _ r) in EP; [|exact H1]. destruct EP as (b & r' & -> & [(Eb & H2 & EP)|(Eb & H2 & EP)]).
  - change CH_QM with (b2z x3f) in Eb. apply b2z_inj in Eb. subst b. run_in EP. injection EP as <- <-.
    apply (ploop_inv cf) in K; [|discriminate]. destruct K as (n1 & ps & s2 & -> & K1 & K).
    pose proof (step_post cf Hdo Hend ltac:(lia) _ _ _ _ HI1 K1) as (HI2 & _ & HU2).
    destruct (wide_step StPiEnd ltac:(discriminate) _ _ _ A1 K1) as (K1' & _).
    change (step (wide cf) StPiEnd) with (processPiEnd (wide cf)) in K1'. qsimp_in K1'. qsimp_in H2. clear K1.
    set (s1 := set_last _ _) in K1'.
    assert (L : s_last s1 = p + zlen w + 1 + 1) by reflexivity.
    assert (P1 : Pos (p + zlen w + 1 + 1) s1) by (split; reflexivity).
    destruct (epi_inv ts s1 _ r' ps s2 Q P1 L H2 K1') as (nm & v & r & -> & Hr & He).
    destruct (epi_ok ts s1 _ (Epi [] nm v) r Q P1 L He Hr H2) as (s3 & E3 & S3). rewrite E3 in K1'. injection K1' as <- <-.
    cbn [p_target p_value] in *. cbn [isPiEnd] in HU2.
    change (match v with Some (b, x) => [b] ++ x ++ lit "?>" | None => lit "?" end) with (epi_rest v) in *.
    rewrite <- epi_rest_len in S3. set (q := p + zlen w + 1 + 1 + zlen nm + zlen (epi_rest v)) in *.
    pose proof H2 as H3. do 2 apply At_app in H3. fold q in H3.
    destruct (IH n1 ltac:(lia) q _ r s3 sf HI2 S3 H3 HU2 K) as (es & w2 & r2' & -> & Hes & HEs).
    assert (EL : render_epi (Epi w nm v) ++ render_epilog es w2 = w ++ x3c :: x3f :: nm ++ epi_rest v ++ render_epilog es w2).
    { rewrite render_epi_eq. cbn [p_ws p_target p_value]. rewrite <- !app_assoc. reflexivity. }
    exists (Epi w nm v :: es), w2, r2'. cbn [render_epilog wfx]. split; [rewrite EL, <- !app_assoc; cbn [app]; rewrite <- !app_assoc; reflexivity|].
    split; [split; [|split; [exact Hr | exact Hes]]|].
    + destruct He as (_ & He). split; [exact Hw | exact He].
    + assert (EQ : p + zlen (render_epi (Epi w nm v)) = q).
      { rewrite render_epi_eq. cbn [p_ws p_target p_value]. rewrite !zlen_app. change (zlen (lit "<?")) with 2. unfold q. lia. }
      unfold ends_at. cbn [render_epilog]. rewrite zlen_app. destruct HEs as [HEs|[(-> & -> & HEs)|(N & -> & HEs & l0 & e & -> & V)]].
      * left. lia.
      * cbn [render_epilog]. rewrite zl0, Z.add_0_r, EQ. destruct S3 as (_ & _ & Sr). destruct HU2 as [U|(U & Zb)]; [left; lia|].
        right. right. split; [discriminate|]. split; [reflexivity|]. split; [lia|]. exists [], (Epi w nm v). split; [reflexivity|]. cbn [p_value]. intros ->.
        cbn [epi_rest] in H2, q. apply At_app in H2. lits_in H2. apply At_cons in H2. destruct H2 as (Z2 & _).
        replace (p + zlen w + 1 + 1 + zlen nm) with (c_end cf) in Z2 by (unfold q in *; change (zlen (lit "?")) with 1 in *; lia). change (c_doc (wide cf)) with doc in Z2. rewrite Zb in Z2. discriminate Z2.
      * right. right. split; [discriminate|]. split; [reflexivity|]. split; [lia|]. exists (Epi w nm v :: l0), e. auto.
  - exfalso. apply bind_inv in EP. destruct EP as (b2 & s2 & KS & EP). destruct b2; [|revert EP; apply parseErr_not]. run_in EP. injection EP as <- <-.
    rewrite codes_lit in KS. apply (skipSeq_inv cf _ _ (b :: r')) in KS; [|exact H2]. destruct KS as [(_ & r & E & H3 & ->)|(X & _)]; [|discriminate X].
    apply (ploop_inv cf) in K; [|discriminate]. destruct K as (n1 & ps & s3 & -> & K1 & _).
    destruct (wide_step StEndComment ltac:(discriminate) _ _ _ A1 K1) as (K1' & _). clear K1.
    change (step (wide cf) StEndComment) with (processEndComment (wide cf)) in K1'. unfold processEndComment in K1'. apply bind_inv in K1'. destruct K1' as ([] & s4 & KC & K1).
    set (s5 := set_last _ _) in KC. pose proof KC as KC'. apply (commentLoop_inv _ s5 r) in KC'; [|exact B1 | exact H3]. destruct KC' as (x & r2' & -> & Hx & Hs).
    rewrite (commentLoop_ok x (fuel (wide cf)) s5 r2' B1 Hx Hs H3 (at_fuel_app (wide cf) _ _ _ H3)) in KC. injection KC as <-. run_in K1. change (s_cur (commentEnd _ _)) with 45 in K1. cbn [Z.eqb negb] in K1.
    revert K1. apply parseErr_not.
Qed.
End Wide.

(** ** From the start of the document *)
Section Loop.
Variable cf : cfg.
Notation doc := (c_doc cf).
Hypothesis Hdo : 0 <= c_docOffset cf.
Hypothesis Hend : 0 <= c_end cf <= zlen doc.
Hypothesis HD : zlen doc < 2^31.
Hypothesis HN : c_ns cf = false.
Context {Nv : nsview}.
Local Notation At := (DocScan.At cf).
Local Notation Final := (DocBody.Final cf).
Local Notation Dec := (DocStart.Dec cf).
Notation stop := (fun (_ : nat) (s : pst) => @ROk unit tt s).
Local Notation body_ok := (DocBody.body_ok (wide cf) stop eq_refl HD HN).
Local Notation body_inv := (DocBody.body_inv (wide cf) stop eq_refl HD HN).
Local Notation start_ok := (DocStart.start_ok (wide cf) stop eq_refl HD).
Local Notation start_inv := (DocStart.start_inv (wide cf) stop eq_refl HD).
Lemma loopIn_inv ts p l c la s n sf : Dec ts p l c la s -> Inv cf StDocStart s -> zlen doc - s_roff s < Z.of_nat n ->
  parseLoop cf n StDocStart s = ROk tt sf ->
  exists S it f es w r, l = render_start S ++ render_body (junk_of S) it f ++ render_epilog es w ++ r /\
    wf_start S (render_body (junk_of S) it f) /\ wf_body (junk_of S) [] it f /\ wfx es w r /\
    let q := p + zlen (render_start S) + zlen (render_body (junk_of S) it f) in q <= c_end cf /\ ends_at cf q es w.
Proof.
  intros HDc HI Hn K. rewrite <- loop_parse in K. destruct (loop_run _ _ _ _ _ _ K) as (n' & s' & R & KF).
  pose proof HDc as (((_ & _ & _ & B4 & _) & _) & _).
  destruct (run_inv cf Hdo Hend ltac:(lia) _ _ _ _ _ R HI ltac:(discriminate) ltac:(discriminate) Hn) as (HI' & HU & _).
  destruct (run_wide cf Hend _ _ _ _ _ R ltac:(split; [reflexivity | left; exact B4])) as (RW & _).
  pose proof (run_loop (wide cf) stop _ _ _ _ _ RW) as KW. cbv beta in KW.
  destruct (start_inv _ _ _ _ _ _ _ _ HDc KW) as (S & l1 & -> & W1). destruct (start_ok _ _ _ _ _ _ _ HDc W1) as (s1 & R1 & HR).
  destruct (DocBase.reach_any _ _ _ _ _ _ R1 n) as [X|(n1 & _ & X)]; [congruence|]. rewrite X in KW.
  destruct (body_inv n1 _ _ _ _ _ _ _ _ HR KW) as (it & f & r & -> & W2). destruct (body_ok _ _ _ _ _ _ _ _ _ HR W2) as (s2 & R2 & HS).
  destruct (DocBase.reach_any _ _ _ _ _ _ R2 n1) as [Y|(n2 & _ & Y)]; [congruence|]. rewrite Y in KW. destruct n2; cbn [DocBase.loop] in KW; injection KW as ->.
  all: pose proof HR as (_ & H & _); apply DocScan.At_app in H.
  all: destruct (epilogIn_inv cf Hdo Hend HD n' _ _ _ s' sf HI' HS H (or_introl HU) KF) as (es & w & r' & -> & W3 & HE).
  all: exists S, it, f, es, w, r'; split; [reflexivity|]; split; [exact (start_less _ _ _ _ _ W2 W1)|]; split; [exact W2|]; split; [exact W3|]; cbv zeta.
  all: split; [|exact HE]; destruct HS as (_ & _ & HS); lia.
Qed.
End Loop.

(** ** The same run in the buffer cut off at the end of the window *)
Definition cut (cf : cfg) : cfg := mkCfg (firstn (Z.to_nat (c_end cf)) (c_doc cf)) (c_docOffset cf) (c_docLength cf) (c_end cf) (c_ns cf) (c_shallow cf).
Section Cut.
Variable cf : cfg.
Notation doc := (c_doc cf).
Hypothesis Hdo : 0 <= c_docOffset cf.
Hypothesis Hend : 0 <= c_end cf <= zlen doc.
Hypothesis HD : zlen doc < 2^31.
Hypothesis HN : c_ns cf = false.
Context {Nv : nsview}.
Notation stop := (fun (_ : nat) (s : pst) => @ROk unit tt s).
Lemma cut_len : zlen (c_doc (cut cf)) = c_end cf.
Proof. cbn [cut c_doc]. unfold zlen in *. rewrite firstn_length. lia. Qed.
Lemma loop_nodiv n : forall ps s, Inv (cut cf) ps s -> zlen (c_doc (cut cf)) - s_roff s < Z.of_nat n -> loop (cut cf) stop n ps s <> RDiverge.
Proof.
  pose proof cut_len as CL.
  assert (W : forall ps s, Inv (cut cf) ps s -> ParserWp.wp (cut cf) (step (cut cf) ps) s (postStep (cut cf) ps s)).
  { intros ps s. apply wp_step; cbn [cut c_docOffset c_end] in *; [exact Hdo | rewrite CL; lia | lia]. }
  induction n as [|n IH]; intros ps s HI Hn; pose proof HI as [C _].
  { facts C. lia. }
  assert (D : ps = StDocEnd \/ ps <> StDocEnd) by (destruct ps; first [left; reflexivity | right; discriminate]).
  destruct D as [->|D]; [discriminate|]. rewrite (loop_step (cut cf) stop n ps s D). specialize (W ps s HI). unfold ParserWp.wp in W. unfold andThen.
  destruct (step (cut cf) ps s) as [ps' s'|e s'|w|]; try discriminate.
  - destruct W as (HI' & R & _). apply IH; [exact HI' | lia].
  - destruct W as [W _]. cbn [cut c_ns] in W. congruence.
Qed.
Lemma run_cut n ps s n' s' : run (cut cf) n ps s n' s' -> alike s s -> run cf n ps s n' s' /\ alike s' s'.
Proof.
  induction 1 as [n s|n ps s ps1 s1 n' s' N E R IH]; intros A; [split; [apply run_end | exact A]|].
  assert (S : sim alike over (step cf ps) (step (cut cf) ps)).
  { apply (ParserRelMain.sim_step cf (cut cf) alike over over true alike_frame over_leaves over_escapes over_leaves (fun _ _ _ H => H)); [apply window_prims | apply window_special]; reflexivity. }
  destruct (S s s A) as [M|M]; rewrite E in M; [|destruct M as [M|[M|M]]; discriminate M].
  destruct (step cf ps s) as [b t|e t|w|] eqn:E1; cbn in M; try contradiction. destruct M as (-> & -> & A1).
  destruct (IH ltac:(split; [reflexivity | exact A1])) as (R1 & A2). split; [eapply run_step; eassumption | exact A2].
Qed.
Lemma ended_cut p ts s : Ended (cut cf) p ts s -> Ended cf p ts s.
Proof.
  intros ((B & D & _ & L2 & N & C & _) & P). split; [|exact P]. split; [exact B|]. split; [exact D|].
  split; [intros k nm X; destruct k; discriminate X|]. split; [exact L2|]. split; [exact N|]. split; [exact C|]. intros k nm X; destruct k; discriminate X.
Qed.
Lemma loopIn_ok ts p S it f x c la s n es w r : Dec (cut cf) ts p (render_start S ++ render_body (junk_of S) it f ++ x) c la s ->
  wf_start S (render_body (junk_of S) it f) -> wf_body (junk_of S) [] it f ->
  let q := p + zlen (render_start S) + zlen (render_body (junk_of S) it f) in
  At cf q (render_epilog es w ++ r) -> wfx es w r -> ends_at cf q es w ->
  Inv (cut cf) StDocStart s -> zlen (c_doc (cut cf)) - s_roff s < Z.of_nat n ->
  parseLoop cf n StDocStart s = RDiverge \/ exists s', parseLoop cf n StDocStart s = ROk tt s' /\
    Final cf (ts ++ start_toks p S ++ body_toks (junk_of S) (p + zlen (render_start S)) [] it f ++ epilog_toks q es) s'.
Proof.
  intros HDc W1 W2 q H W3 HE HI Hn. pose proof cut_len as CL.
  assert (CE : c_end (cut cf) = zlen (c_doc (cut cf))) by (rewrite CL; reflexivity).
  assert (CD : zlen (c_doc (cut cf)) < 2^31) by (rewrite CL; lia).
  pose proof HDc as (((_ & _ & _ & B4 & _) & _) & _).
  destruct (start_ok (cut cf) stop CE CD _ _ _ _ _ _ _ HDc (start_more _ _ _ W1)) as (s1 & R1 & HR).
  destruct (body_ok (cut cf) stop CE CD HN _ _ _ _ _ _ _ _ _ HR W2) as (s2 & R2 & HS).
  pose proof (reach_trans (cut cf) stop _ _ _ _ _ _ R1 R2) as R. destruct (DocBase.reach_any _ _ _ _ _ _ R n) as [D|(n2 & _ & D)]; [elim (loop_nodiv n _ _ HI Hn D)|].
  assert (D' : loop (cut cf) stop n StDocStart s = ROk tt s2) by (rewrite D; destruct n2; reflexivity).
  destruct (loop_run _ _ _ _ _ _ D') as (n' & s' & RR & [= <-]).
  destruct (run_cut _ _ _ _ _ RR ltac:(split; [reflexivity | left; exact B4])) as (RC & _).
  pose proof (run_loop cf (fun n => parseLoop cf n StDocEnd) _ _ _ _ _ RC) as K. rewrite loop_parse in K. rewrite K.
  destruct (epilogIn_ok cf HD es q _ w r s' n' (ended_cut _ _ _ HS) H W3 HE) as [X|(s3 & X & F)]; [left; exact X | right].
  exists s3. split; [exact X|]. rewrite <- !app_assoc in F. exact F.
Qed.
End Cut.

(** ** Parse *)
Section Parse.
Variable cf : cfg.
Notation doc := (c_doc cf).
Hypothesis Hdo : 0 <= c_docOffset cf < c_end cf.
Hypothesis Hend : c_end cf <= zlen doc.
Hypothesis Hlen : c_end cf = c_docOffset cf + c_docLength cf.
Hypothesis HD : zlen doc < 2^31.
Hypothesis HN : c_ns cf = false.
Notation off := (c_docOffset cf).

Lemma fresh_inv e b s : 0 <= off < e -> e <= c_end cf -> fresh off s -> lbOk b ->
  Inv (mkCfg (firstn (Z.to_nat e) doc) off (c_docLength cf) e (c_ns cf) (c_shallow cf)) StDocStart (set_vtd b s) /\ s_roff (set_vtd b s) = off.
Proof.
  intros Ho He F Lb. set (k := mkCfg _ _ _ _ _ _).
  assert (L : zlen (firstn (Z.to_nat e) doc) = e) by (unfold zlen in *; rewrite firstn_length; lia).
  destruct (fresh_core (firstn (Z.to_nat e) doc) off (c_docLength cf) e (c_ns cf) (c_shallow cf) s) as (C & D & _ & R); [lia | lia | lia | exact F|].
  change (mkCfg _ _ _ _ _ _) with k in C. split; [|exact R]. split; [apply core_set_vtd; first [assumption | lia | subst k; cbn [c_docOffset c_end c_doc]; lia] | psimp; lia].
Qed.
Lemma fresh_invF b s : fresh off s -> lbOk b -> Inv cf StDocStart (set_vtd b s) /\ s_roff (set_vtd b s) = off.
Proof.
  clear HN. intros F Lb. destruct (fresh_core doc off (c_docLength cf) (c_end cf) (c_ns cf) (c_shallow cf) s) as (C & D & _ & R); [lia | lia | lia | exact F|].
  assert (C' : Core cf s) by (destruct cf; exact C). split; [|exact R]. split; [apply core_set_vtd; first [assumption | lia] | psimp; lia].
Qed.
Lemma fresh_vtd s s1 : fresh off s -> writeVtd TokDocument 0 0 (s_depth s) s = ROk tt s1 -> exists b, s1 = set_vtd b s /\ lbOk b.
Proof.
  intros F E. unfold writeVtd in E. match type of E with appendTo _ _ ?v _ = _ => destruct (appendVtd v s (proj1 (fresh_bufs _ _ F))) as (b & Eb & Lb) end.
  rewrite Eb in E. injection E as <-. exists b. auto.
Qed.
Lemma parseIn_inv s sf : fresh off s -> repr (vtdExp (c_docLength cf)) (s_vtd s) [] -> ~ utf16_sig cf -> parse cf s = ROk tt sf ->
  exists S it f es w r, At cf off (render_start S ++ render_body (junk_of S) it f ++ render_epilog es w ++ r) /\
    wf_start S (render_body (junk_of S) it f) /\ wf_body (junk_of S) [] it f /\ wfx es w r /\
    let q := off + zlen (render_start S) + zlen (render_body (junk_of S) it f) in q <= c_end cf /\ ends_at cf q es w.
Proof.
  intros F FV NS K. assert (X : s_off s = off /\ s_enc s = 0 /\ s_inc s = 1 /\ s_single s = true).
  { destruct F as (? & ? & ? & ? & ? & ? & ? & ? & ? & -> & _). repeat split. }
  destruct X as (Xo & Xe & Xi & Xs). pose proof (decide_spec cf s ltac:(lia) Xo Xe Xi Xs) as D. rewrite Xo in D. unfold parse in K. apply bind_inv in K. destruct K as ([] & s1 & K1 & K). rewrite K1 in D.
  destruct D as (_ & _ & [(-> & _)|[(_ & B)|(_ & B)]]); [|elim NS; left; exact B | elim NS; right; exact B].
  destruct (At_exists cf off ltac:(lia)) as (l & H). destruct (fresh_dec cf s _ F FV ltac:(lia) H) as (s2 & E2 & D2). rewrite bind_get in K. change (s_depth s) with (s_depth s) in K. rewrite (bind_ok _ _ _ _ _ E2) in K.
  destruct (fresh_vtd _ _ F E2) as (b & -> & Lb). destruct (fresh_invF b s F Lb) as (HI & HR).
  assert (HF : zlen doc - s_roff (set_vtd b s) < Z.of_nat (fuel cf)) by (rewrite HR; unfold fuel, zlen; lia).
  destruct (loopIn_inv cf ltac:(lia) ltac:(lia) HD HN _ _ _ _ _ _ _ _ D2 HI HF K) as (S & it & f & es & w & r & -> & Y).
  exists S, it, f, es, w, r. split; [exact H | exact Y].
Qed.

Lemma first_bytes S it f y b t : wf_start S (render_body (junk_of S) it f) -> wf_body (junk_of S) [] it f ->
  render_start S ++ render_body (junk_of S) it f ++ y = b :: t -> b <> x00 /\ (b = x3c -> exists c u, t = c :: u /\ c <> x00).
Proof.
  intros W1 W2 E. apply (start_first S (render_body (junk_of S) it f ++ y)); [apply start_more, W1| |exact E].
  intros J. rewrite J in *. destruct it as [|[m g] it]; cbn [wf_body render_body] in *; rewrite first_nil.
  - destruct W2 as (W2 & _). destruct (markup_first _ _ W2) as (c0 & u0 & -> & N). cbn [app]. eexists _, _. split; [reflexivity | exact N].
  - destruct W2 as (W2 & _). destruct (markup_first _ _ W2) as (c0 & u0 & -> & N). cbn [app]. eexists _, _. split; [reflexivity | exact N].
Qed.
Lemma At_cut p x y : At cf p (x ++ y) -> p + zlen x <= c_end cf -> exists z, At (cut cf) p (x ++ z).
Proof.
  intros [Hp E] L. unfold DocScan.At. pose proof (zlen_nonneg x). rewrite (cut_len cf ltac:(lia)).
  exists (skipn (length x) (skipn (Z.to_nat p) (c_doc (cut cf)))). split; [lia|].
  rewrite <- (firstn_skipn (length x) (skipn (Z.to_nat p) (c_doc (cut cf)))) at 1. f_equal.
  cbn [cut c_doc]. rewrite skipn_firstn_comm, E, firstn_firstn. rewrite Nat.min_l by (unfold zlen in *; lia).
  rewrite firstn_app, Nat.sub_diag, firstn_all. cbn [firstn]. apply app_nil_r.
Qed.
Lemma parseIn_ok s S it f es w r : fresh off s -> repr (vtdExp (c_docLength cf)) (s_vtd s) [] ->
  At cf off (render_start S ++ render_body (junk_of S) it f ++ render_epilog es w ++ r) ->
  wf_start S (render_body (junk_of S) it f) -> wf_body (junk_of S) [] it f -> wfx es w r ->
  let q := off + zlen (render_start S) + zlen (render_body (junk_of S) it f) in q <= c_end cf -> ends_at cf q es w ->
  parse cf s = RDiverge \/ exists s', parse cf s = ROk tt s' /\ Final cf (tokens off (Doc S it f es w)) s'.
Proof.
  intros F FV H W1 W2 W3 q Lq HE.
  assert (NE : exists b t, render_start S ++ render_body (junk_of S) it f ++ render_epilog es w ++ r = b :: t).
  { destruct S as [j|u|dd]; cbn [render_start]; [eexists _, _; reflexivity | | unfold render_decl; eexists _, _; reflexivity]. destruct u; eexists _, _; reflexivity. }
  destruct NE as (b & t & E). destruct (first_bytes _ _ _ _ _ _ W1 W2 E) as (N0 & N1). pose proof H as H0. rewrite E in H0.
  pose proof (decide_plain cf HD HN s b t Hend F ltac:(lia) Hlen H0 N0 N1) as E1.
  unfold parse. rewrite (bind_ok _ _ _ _ _ E1), bind_get.
  assert (HC : exists z, At (cut cf) off (render_start S ++ render_body (junk_of S) it f ++ z)).
  { pose proof H as HA. rewrite app_assoc in HA. destruct (At_cut off _ _ HA) as (z & HZ); [rewrite zlen_app; lia|]. exists z. rewrite app_assoc. exact HZ. }
  destruct HC as (z & HZ). destruct (fresh_dec (cut cf) s _ F FV ltac:(cbn; lia) HZ) as (s1 & E2 & D1). change (s_depth s) with (s_depth s). rewrite (bind_ok _ _ _ _ _ E2).
  destruct (fresh_vtd _ _ F E2) as (b1 & -> & Lb). destruct (fresh_inv (c_end cf) b1 s ltac:(lia) ltac:(lia) F Lb) as (HI & HR).
  do 2 apply At_app in H.
  destruct (loopIn_ok cf ltac:(lia) ltac:(lia) HD HN _ _ _ _ _ _ _ _ _ (fuel cf) es w r D1 W1 W2 H W3 HE HI) as [X|(s' & X & FN)].
  - rewrite HR, (cut_len cf ltac:(lia)). unfold fuel, zlen in *. lia.
  - left. exact X.
  - right. exists s'. split; [exact X | exact FN].
Qed.
End Parse.
