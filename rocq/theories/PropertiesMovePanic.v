(** Where a move over the tables of a parser can panic. *)
From Verif Require Import Lib XmlChar Buffer BufferProofs SpecBuffer Reader ParserState ParserPrim ParserProc ParserMain SpecParse ParserWp ParserOutcome ParserFrame ParserInv ParserInvNs
  SpecToken TokenProofs SpecNav Nav NavMoveProofs NavCacheProofs SpecChar SpecDoc SpecLoc DocBase DocLoc NavParsed PropertiesParse PropertiesPages PropertiesTree ParserLog ParserTree ParserCount PropertiesQuirks PropertiesDoc PropertiesCache PropertiesSteady PropertiesTotal.

(** No read below the size, or at 0, panics. *)
Definition hushed (b : longbuf) : Prop := forall i, i < Z.max 1 (b_size b) -> calm (longAt b i).
Lemma hushed_holds b l : holds b l -> hushed b.
Proof.
  intros H i I. destruct (Z.eq_dec (b_size b) 0) as [Z0|NZ]; [|apply (quiet_holds _ _ H); pose proof (holds_size _ _ H); pose proof (zlen_nonneg l); lia].
  intros w E. destruct H as (e & R). destruct (proj1 (bat_panics _ _ _ _ i R) (ex_intro _ w E)) as (Hi & _ & Hp). rewrite (rp_size _ _ _ R) in Z0. pose proof (pow2_pos e ltac:(destruct R; lia)) as HP. pose proof (Z.div_pos i (2^e) Hi HP). lia.
Qed.
(** ** The cursor of a navigator whose context is deep enough *)
Record fit (B : Z) (n : nav) : Prop := Fit {
  fi_sound : sound B n; fi_vtd : quiet (n_vtd n); fi_l1 : hushed (n_l1 n); fi_l1i : n_l1i n < Z.max 1 (b_size (n_l1 n));
  fi_len : 4 <= zlen (n_ctx n); fi_c0 : exists c, znth (n_ctx n) 0 = Some c /\ -1 <= c < zlen (n_ctx n);
  fi_depth : forall i d, getTokenDepth n i = Ok d -> d < zlen (n_ctx n) }.
Lemma fit_c0 B n : fit B n -> exists c, ctxAt n 0 = Ok c /\ -1 <= c < zlen (n_ctx n).
Proof. intros F. destruct (fi_c0 _ _ F) as (c & E & R). exists c. unfold ctxAt. rewrite E. split; [reflexivity | exact R]. Qed.
Lemma fit_ctx B n k : fit B n -> 0 <= k < zlen (n_ctx n) -> exists v, ctxAt n k = Ok v /\ (k <> 0 -> -1 <= v < B).
Proof.
  intros F K. destruct (proj2 (znth_some_iff (n_ctx n) k) K) as (v & E). exists v. unfold ctxAt. rewrite E. split; [reflexivity|]. intros D. exact (so_ctx _ _ (fi_sound _ _ F) _ _ D E).
Qed.
Lemma fit_set B n i v : fit B n -> 0 <= i < zlen (n_ctx n) -> (i <> 0 -> -1 <= v < B) -> (i = 0 -> -1 <= v < zlen (n_ctx n)) ->
  exists n', ctxSet n i v = Ok n' /\ fit B n' /\ zlen (n_ctx n') = zlen (n_ctx n) /\ (i <> 0 -> ctxAt n' 0 = ctxAt n 0).
Proof.
  intros F I V V0. destruct (proj2 (zupd_some_iff (n_ctx n) i v) I) as (c & E). pose proof (zupd_zlen _ _ _ _ E) as L. assert (ES : ctxSet n i v = Ok (w_ctx c n)) by (unfold ctxSet; rewrite E; reflexivity).
  exists (w_ctx c n). split; [exact ES|]. destruct F as [f1 f2 f3 f4 f5 f6 f7]. split; [split; cbn [w_ctx n_ctx n_vtd n_l1 n_l1i]|split].
  - exact (sound_set _ _ _ _ _ f1 V ES).
  - exact f2.
  - exact f3.
  - exact f4.
  - lia.
  - destruct (Z.eq_dec i 0) as [->|D]; [exists v; split; [exact (zupd_same _ _ _ _ E) | specialize (V0 eq_refl); lia]|]. destruct f6 as (c0 & E0 & R0). exists c0. split; [rewrite (zupd_other _ _ _ _ _ E D); exact E0 | lia].
  - intros k d G. rewrite L. exact (f7 k d G).
  - cbn [w_ctx n_ctx]. exact L.
  - intros D. unfold ctxAt. cbn [w_ctx n_ctx]. rewrite (zupd_other _ _ _ _ _ E D). reflexivity.
Qed.
Ltac fit_fields lem := let F := fresh in intros F; destruct F; split; cbn [w_term w_l1i w_l2i w_l3i w_l2lo w_l2up w_l3lo w_l3up n_ctx n_vtd n_l1 n_l1i]; first [assumption | apply lem; assumption | idtac].
Lemma fit_term B m : fit B m -> fit B (w_term false m). Proof. fit_fields sound_term. Qed.
Lemma fit_l1i B m v : v < Z.max 1 (b_size (n_l1 m)) -> fit B m -> fit B (w_l1i v m). Proof. intros V. fit_fields sound_l1i. Qed.
Lemma fit_l2i B m v : fit B m -> fit B (w_l2i v m). Proof. fit_fields sound_l2i. Qed.
Lemma fit_l3i B m v : fit B m -> fit B (w_l3i v m). Proof. fit_fields sound_l3i. Qed.
Lemma fit_l2lo B m v : fit B m -> fit B (w_l2lo v m). Proof. fit_fields sound_l2lo. Qed.
Lemma fit_l2up B m v : fit B m -> fit B (w_l2up v m). Proof. fit_fields sound_l2up. Qed.
Lemma fit_l3lo B m v : fit B m -> fit B (w_l3lo v m). Proof. fit_fields sound_l3lo. Qed.
Lemma fit_l3up B m v : fit B m -> fit B (w_l3up v m). Proof. fit_fields sound_l3up. Qed.

(** ** Moves *)
Definition fair (B : Z) (P : panic -> Prop) (r : moved) : Prop := fit B (fst r) /\ forall w, snd r = Panic w -> P w.
Lemma fair_ok B P m b : fit B m -> fair B P (m, Ok b).
Proof. intros F. split; [exact F | intros w; discriminate]. Qed.
Lemma fair_try {A} B (P : panic -> Prop) m (r : out A) k : fit B m -> (forall w, r = Panic w -> P w) -> (forall a, r = Ok a -> fair B P (k a)) -> fair B P (mtry m r k).
Proof. intros F C K. destruct r as [a|e|w]; cbn [mtry]; [exact (K a eq_refl) | split; [exact F | intros w; discriminate] | split; [exact F | intros w' [= <-]; exact (C w eq_refl)]]. Qed.
Lemma fair_nil {A} B (P : panic -> Prop) m (r : out A) k : fit B m -> (forall w, r = Panic w -> P w) -> (forall a, r = Ok a -> fair B P (k a)) -> fair B P (mtryNil m r k).
Proof. intros F C K. destruct r as [a|e|w]; cbn [mtryNil]; [exact (K a eq_refl) | split; [exact F | intros w; discriminate] | split; [exact F | intros w' [= <-]; exact (C w eq_refl)]]. Qed.
Lemma calm_P {A} (P : panic -> Prop) (r : out A) : calm r -> forall w, r = Panic w -> P w.
Proof. intros C w E. destruct (C w E). Qed.
Lemma fair_set B P m i v k : fit B m -> 0 <= i < zlen (n_ctx m) -> (i <> 0 -> -1 <= v < B) -> (i = 0 -> -1 <= v < zlen (n_ctx m)) ->
  (forall m', fit B m' -> zlen (n_ctx m') = zlen (n_ctx m) -> ctxSet m i v = Ok m' -> fair B P (k m')) -> fair B P (mtry m (ctxSet m i v) k).
Proof. intros F I V V0 K. destruct (fit_set B m i v F I V V0) as (m' & E & F' & L & _). rewrite E. cbn [mtry]. exact (K m' F' L E). Qed.
Lemma fair_two B P m c v : fit B m -> 0 < c < zlen (n_ctx m) -> -1 <= v < B ->
  fair B P (mtry m (ctxSet m 0 c) (fun n1 => mtry n1 (ctxSet n1 c v) (fun n2 => (n2, Ok true)))).
Proof.
  intros F C V. apply fair_set; [exact F | lia | lia | lia|]. intros m1 F1 L1 _. apply fair_set; [exact F1 | lia | lia | lia|]. intros m2 F2 _ _. apply fair_ok. exact F2.
Qed.
Lemma upper_calm B m : fit B m -> forall i, i < Z.max 1 (b_size (n_l1 m)) -> calm (upper32At (n_l1 m) i).
Proof. intros F i I w E. unfold upper32At in E. destruct (longAt (n_l1 m) i) eqn:L; try discriminate E. exact (fi_l1 _ _ F i I _ L). Qed.
Lemma lower_calm b i : calm (longAt b i) -> calm (lower32At b i).
Proof. intros C w E. unfold lower32At in E. destruct (longAt b i) eqn:L; try discriminate E. exact (C _ eq_refl). Qed.
Lemma bound_calm b : hushed b -> forall k i d, i + Z.of_nat k <= b_size b -> calm (upperBoundLoop k b i d).
Proof.
  intros Q. induction k as [|k IH]; intros i d L; cbn [upperBoundLoop]; [apply calm_ok|]. apply calm_bind; [apply lower_calm, Q; lia|]. intros l _. destruct (u32 l =? 0xffffffff); [apply IH; lia | apply calm_ok].
Qed.
Lemma ubound_calm b i d : hushed b -> calm (upperBound b i d).
Proof.
  intros Q. unfold upperBound. destruct (Z.le_gt_cases i (b_size b)); [apply bound_calm; [exact Q | lia]|]. replace (Z.to_nat (b_size b - i)) with O by lia. apply calm_ok.
Qed.
Lemma bound_page b : forall k i d w, upperBoundLoop k b i d = Panic w -> w = PnPage.
Proof.
  induction k as [|k IH]; intros i d w E; cbn [upperBoundLoop] in E; [discriminate E|]. unfold lower32At in E. destruct (longAt b i) as [v|e|p] eqn:L; cbn [obind] in E; [|discriminate E | injection E as <-; exact (bat_panic _ _ _ _ L)].
  destruct (_ =? _) in E; [exact (IH _ _ _ E) | discriminate E].
Qed.
Lemma lower_page b i w : lower32At b i = Panic w -> w = PnPage.
Proof. unfold lower32At. destruct (longAt b i) as [v|e|p] eqn:L; intros E; [discriminate E.. | injection E as <-; exact (bat_panic _ _ _ _ L)]. Qed.
Lemma upper_page b i w : upper32At b i = Panic w -> w = PnPage.
Proof. unfold upper32At. destruct (longAt b i) as [v|e|p] eqn:L; intros E; [discriminate E.. | injection E as <-; exact (bat_panic _ _ _ _ L)]. Qed.
Lemma type_calm B m i : fit B m -> i < B -> calm (getTokenType m i).
Proof. intros F I. apply calm_bind; [apply (fi_vtd _ _ F); rewrite (so_size _ _ (fi_sound _ _ F)); exact I | intros; apply calm_ok]. Qed.
Lemma depth_calm B m i : fit B m -> i < B -> calm (getTokenDepth m i).
Proof. intros F I. apply calm_bind; [apply (fi_vtd _ _ F); rewrite (so_size _ _ (fi_sound _ _ F)); exact I | intros; apply calm_ok]. Qed.
Definition never (w : panic) : Prop := False.
Lemma fair_weaken B (P : panic -> Prop) r : fair B never r -> fair B P r.
Proof. intros (F & N). split; [exact F|]. intros w E. destruct (N w E). Qed.

Lemma fair_root B n : fit B n -> fair B never (toRootElement n).
Proof.
  intros F. pose proof (fi_len _ _ F) as LE. unfold toRootElement. destruct (fit_c0 _ _ F) as (c & E & R). rewrite E. cbn [mtry]. destruct (c =? 0); [cbn [mtry]; apply fair_ok, fit_term, F|]. apply fair_set; [exact F | lia | lia | lia|].
  intros m' F' _ _. apply fair_ok, fit_term, F'.
Qed.
Lemma fair_parent B n : fit B n -> fair B never (toParentElement n).
Proof.
  intros F. pose proof (so_max _ _ (fi_sound _ _ F)) as M. pose proof (fi_len _ _ F) as LE. unfold toParentElement. rewrite (so_term _ _ (fi_sound _ _ F)). destruct (fit_c0 _ _ F) as (c & E & R). rewrite E. cbn [mtry]. destruct (0 <? c) eqn:C.
  - destruct (fit_set B n c (-1) F ltac:(lia) ltac:(lia) ltac:(lia)) as (m & E1 & F1 & L1 & K). rewrite E1. cbn [mtry]. rewrite (K ltac:(lia)), E. cbn [mtry]. apply fair_set; [exact F1 | lia | lia | lia|]. intros m2 F2 _ _. apply fair_ok, F2.
  - destruct (c =? 0) eqn:C0; [|apply fair_ok, F]. apply fair_set; [exact F | lia | lia | lia|]. intros m2 F2 _ _. apply fair_ok, F2.
Qed.
Lemma fair_fcl B k : forall n c0 i, fit B n -> ctxAt n 0 = Ok c0 -> 0 <= c0 -> i + Z.of_nat k <= B -> fair B never (firstChildLoop k n c0 i).
Proof.
  induction k as [|k IH]; intros n c0 i F E R L; cbn [firstChildLoop]; [apply fair_ok, F|]. pose proof (so_max _ _ (fi_sound _ _ F)) as M.
  apply fair_nil; [exact F | apply calm_P, (type_calm B); [exact F | lia]|]. intros t T. apply (type_read B) in T; [|exact (fi_sound _ _ F)].
  apply fair_try; [exact F | apply calm_P, (depth_calm B); [exact F | lia]|]. intros d D. pose proof (fi_depth _ _ F _ _ D) as DL.
  destruct (t =? TokStartingTag); [|apply IH; lia || assumption]. destruct (d <=? c0); [apply fair_ok, F|]. destruct (d =? c0 + 1) eqn:DE; [|apply IH; lia || assumption].
  apply fair_two; [exact F | lia | apply keep_i32; lia].
Qed.
Lemma fair_nsl B k : forall n c0 i, fit B n -> 0 < c0 < zlen (n_ctx n) -> i + Z.of_nat k <= B -> fair B never (nextSiblingLoop k n c0 i).
Proof.
  induction k as [|k IH]; intros n c0 i F R L; cbn [nextSiblingLoop]; [apply fair_ok, F|]. pose proof (so_max _ _ (fi_sound _ _ F)) as M.
  apply fair_nil; [exact F | apply calm_P, (type_calm B); [exact F | lia]|]. intros t T. apply (type_read B) in T; [|exact (fi_sound _ _ F)].
  apply fair_try; [exact F | apply calm_P, (depth_calm B); [exact F | lia]|]. intros d D.
  destruct (t =? TokStartingTag); [|apply IH; lia || assumption]. destruct (d <=? c0); [apply fair_ok, F|]. destruct (d =? c0); [|apply IH; lia || assumption].
  pose proof (keep_i32 i B T ltac:(lia)). apply fair_set; [exact F | lia | lia | lia|]. intros m2 F2 _ _. apply fair_ok, F2.
Qed.
Lemma fair_psl B k : forall n c0 i, fit B n -> 0 < c0 < zlen (n_ctx n) -> i < B -> fair B never (prevSiblingLoop k n c0 i).
Proof.
  induction k as [|k IH]; intros n c0 i F R L; cbn [prevSiblingLoop]; [apply fair_ok, F|]. pose proof (so_max _ _ (fi_sound _ _ F)) as M.
  apply fair_nil; [exact F | apply calm_P, (type_calm B); [exact F | lia]|]. intros t T. apply (type_read B) in T; [|exact (fi_sound _ _ F)].
  apply fair_try; [exact F | apply calm_P, (depth_calm B); [exact F | lia]|]. intros d D.
  destruct (_ && _); [|apply IH; lia || assumption].
  pose proof (keep_i32 i B T ltac:(lia)). apply fair_set; [exact F | lia | lia | lia|]. intros m2 F2 _ _. apply fair_ok, F2.
Qed.
Lemma last_calm B n c0 : fit B n -> forall k i last, i + Z.of_nat k <= B -> calm (lastChildLoop k n c0 i last).
Proof.
  intros F. induction k as [|k IH]; intros i last L; cbn [lastChildLoop]; [apply calm_ok|]. pose proof (type_calm B n i F ltac:(lia)) as TC. destruct (getTokenType n i) as [t|e|w]; [|intros w; discriminate | destruct (TC w eq_refl)].
  apply calm_bind; [apply (depth_calm B); [exact F | lia]|]. intros d _. destruct (t =? TokStartingTag); [|apply IH; lia]. destruct (d <=? c0); [apply calm_ok|]. destruct (d =? c0 + 1); apply IH; lia.
Qed.
(** A last index other than -1 was found at that depth. *)
Lemma last_depth n c0 : forall k i last r, lastChildLoop k n c0 i last = Ok (Some r) -> r = last \/ getTokenDepth n r = Ok (c0 + 1).
Proof.
  induction k as [|k IH]; intros i last r E; cbn [lastChildLoop] in E; [injection E as <-; auto|]. destruct (getTokenType n i) as [t|e|w]; [|discriminate E..]. destruct (getTokenDepth n i) as [d|e|w] eqn:D; cbn [obind] in E; [|discriminate E..].
  destruct (t =? TokStartingTag); [|exact (IH _ _ _ E)]. destruct (d <=? c0); [injection E as <-; auto|]. destruct (d =? c0 + 1) eqn:DE; [|exact (IH _ _ _ E)]. destruct (IH _ _ _ E) as [->|X]; [|auto]. right. rewrite D. f_equal. lia.
Qed.
Lemma start_bound z B : B <= 2^31 -> 0 < B -> -1 <= z < B -> wrap32 (z + 1) + Z.of_nat (Z.to_nat (B - wrap32 (z + 1))) <= B.
Proof. intros M P R. assert (wrap32 (z + 1) <= B); [|lia]. destruct (Z.eq_dec (z + 1) (2^31)) as [->|D]; [vm_compute (wrap32 (2^31)); lia | rewrite (wrap32_id (z + 1)) by lia; lia]. Qed.
Lemma fair_first B n c : fit B n -> ctxAt n 0 = Ok c -> 0 < c < zlen (n_ctx n) -> fair B never (toFirstChild n).
Proof.
  intros F E C. pose proof (so_max _ _ (fi_sound _ _ F)) as M. unfold toFirstChild. rewrite E. cbn [mtry]. destruct (fit_ctx B n c F ltac:(lia)) as (v & EV & V). rewrite EV. cbn [mtry]. cbv zeta. rewrite (so_size _ _ (fi_sound _ _ F)).
  apply fair_fcl; [exact F | exact E | lia | apply start_bound; lia].
Qed.
Lemma fair_last B n c : fit B n -> ctxAt n 0 = Ok c -> 0 < c < zlen (n_ctx n) -> fair B never (toLastChild n).
Proof.
  intros F E C. pose proof (so_max _ _ (fi_sound _ _ F)) as M. unfold toLastChild. rewrite E. cbn [mtry]. destruct (fit_ctx B n c F ltac:(lia)) as (v & EV & V). rewrite EV. cbn [mtry]. cbv zeta. rewrite (so_size _ _ (fi_sound _ _ F)).
  apply fair_try; [exact F | apply calm_P, (last_calm B); [exact F | apply start_bound; lia]|]. intros [r|] L; [|apply fair_ok, F]. destruct (r =? -1) eqn:R; [apply fair_ok, F|].
  specialize (V ltac:(lia)). pose proof (last_inside B n c (fi_sound _ _ F) _ _ (-1) r ltac:(lia) L) as RI. destruct (last_depth _ _ _ _ _ _ L) as [X|D]; [lia|]. pose proof (fi_depth _ _ F _ _ D). apply fair_two; [exact F | lia|]. rewrite (wrap32_id r) by lia. lia.
Qed.
Lemma fair_next B n c : fit B n -> ctxAt n 0 = Ok c -> 0 < c < zlen (n_ctx n) -> fair B never (toNextSibling n).
Proof.
  intros F E C. pose proof (so_max _ _ (fi_sound _ _ F)) as M. unfold toNextSibling. rewrite E. cbn [mtry]. destruct (fit_ctx B n c F ltac:(lia)) as (v & EV & V). rewrite EV. cbn [mtry]. cbv zeta. rewrite (so_size _ _ (fi_sound _ _ F)).
  apply fair_nsl; [exact F | lia | apply start_bound; lia].
Qed.
Lemma fair_prev B n c : fit B n -> ctxAt n 0 = Ok c -> 0 < c < zlen (n_ctx n) -> fair B never (toPrevSibling n).
Proof.
  intros F E C. pose proof (so_max _ _ (fi_sound _ _ F)) as M. unfold toPrevSibling. rewrite E. cbn [mtry]. destruct (fit_ctx B n c F ltac:(lia)) as (v & EV & V). rewrite EV. cbn [mtry]. destruct (fit_ctx B n (c - 1) F ltac:(lia)) as (p & EP & _). rewrite EP. cbn [mtry]. cbv zeta.
  apply fair_psl; [exact F | lia|]. rewrite (wrap32_id (v - 1)) by lia. lia.
Qed.
Lemma fair_sibling B n f : fit B n -> fair B never (toSiblingElement n f).
Proof.
  intros F. unfold toSiblingElement. rewrite (so_term _ _ (fi_sound _ _ F)). destruct (fit_c0 _ _ F) as (c & E & R). rewrite E. cbn [mtry]. pose proof (fi_l1i _ _ F) as LI. pose proof (fi_len _ _ F) as LE.
  destruct ((c =? -1) || (c =? 0)) eqn:C0; [apply fair_ok, F|]. destruct (c =? 1) eqn:C1; [|destruct (c =? 2) eqn:C2; [|destruct (c =? 3) eqn:C3]].
  - destruct (if f then b_size (n_l1 n) <=? n_l1i n + 1 else n_l1i n - 1 <? 0) eqn:G; [apply fair_ok, F|]. cbv zeta. set (j := if f then n_l1i n + 1 else n_l1i n - 1) in *. assert (J : j < Z.max 1 (b_size (n_l1 n))) by (unfold j; destruct f; lia).
    assert (F1 : fit B (w_l1i j n)) by (apply fit_l1i; assumption). apply fair_try; [exact F1 | apply calm_P, (upper_calm B); [exact F1 | exact J]|]. intros v V. apply (so_l1 _ _ (fi_sound _ _ F1)) in V.
    apply fair_set; [exact F1 | cbn [w_l1i n_ctx]; lia | lia | lia|]. intros m2 F2 _ _. apply fair_ok, F2.
  - destruct (if f then n_l2up n <? n_l2i n + 1 else n_l2i n - 1 <? n_l2lo n); [apply fair_ok, F|]. cbv zeta. set (j := if f then n_l2i n + 1 else n_l2i n - 1).
    assert (F1 : fit B (w_l2i j n)) by (apply fit_l2i; assumption). apply fair_try; [exact F1 | apply calm_P, (upper_calm B); [exact F1 | exact LI]|]. intros v V. apply (so_l1 _ _ (fi_sound _ _ F1)) in V.
    apply fair_set; [exact F1 | cbn [w_l2i n_ctx]; lia | lia | lia|]. intros m2 F2 _ _. apply fair_ok, F2.
  - destruct (if f then n_l3up n <? n_l3i n + 1 else n_l3i n - 1 <? n_l3lo n); [apply fair_ok, F|]. cbv zeta. set (j := if f then n_l3i n + 1 else n_l3i n - 1).
    assert (F1 : fit B (w_l3i j n)) by (apply fit_l3i; assumption). apply fair_try; [exact F1 | apply calm_P, (upper_calm B); [exact F1 | exact LI]|]. intros v V. apply (so_l1 _ _ (fi_sound _ _ F1)) in V.
    apply fair_set; [exact F1 | cbn [w_l3i n_ctx]; lia | lia | lia|]. intros m2 F2 _ _. apply fair_ok, F2.
  - destruct f; [apply (fair_next B n c) | apply (fair_prev B n c)]; assumption || lia.
Qed.
Definition paging (c : Z) (w : panic) : Prop := (c = 1 \/ c = 2) /\ w = PnPage.
Lemma fair_child B n f c : fit B n -> ctxAt n 0 = Ok c -> fair B (paging c) (toChildElement n f).
Proof.
  intros F E. unfold toChildElement. rewrite (so_term _ _ (fi_sound _ _ F)). destruct (fit_c0 _ _ F) as (c' & E' & R). assert (c' = c) by congruence. subst c'. clear E'. rewrite E. cbn [mtry]. pose proof (fi_l1i _ _ F) as LI. pose proof (fi_len _ _ F) as LE.
  destruct (c =? -1) eqn:Cm; [apply fair_set; [exact F | lia | lia | lia|]; intros m2 F2 _ _; apply fair_ok, F2|].
  destruct (c =? 0) eqn:C0.
  { destruct (b_size (n_l1 n) =? 0) eqn:Z0; [apply fair_ok, F|]. apply fair_set; [exact F | lia | lia | lia|]. intros m F1 L1 ES. cbv zeta. set (j := if f then 0 else b_size (n_l1 n) - 1).
    assert (EL : n_l1 m = n_l1 n) by (exact (st_l1 _ _ (steady_set n n _ _ _ (steady_refl n) ES))). assert (J : j < Z.max 1 (b_size (n_l1 m))) by (rewrite EL; unfold j; destruct f; lia).
    assert (F2 : fit B (w_l1i j m)) by (apply fit_l1i; assumption). apply fair_try; [exact F2 | apply calm_P, (upper_calm B); [exact F2 | exact J]|]. intros v V. apply (so_l1 _ _ (fi_sound _ _ F2)) in V.
    apply fair_set; [exact F2 | cbn [w_l1i n_ctx]; lia | lia | lia|]. intros m3 F3 _ _. apply fair_ok, F3. }
  destruct (c =? 1) eqn:C1.
  { apply fair_try; [exact F | intros w X; split; [lia | exact (lower_page _ _ _ X)]|]. intros lo _. cbv zeta. assert (F1 : fit B (w_l2lo lo n)) by (apply fit_l2lo, F). destruct (lo =? -1); [apply fair_ok, F1|].
    apply fair_set; [exact F1 | cbn [w_l2lo n_ctx]; lia | lia | cbn [w_l2lo n_ctx]; lia|]. intros m F2 L2 _. cbn [w_l2lo n_ctx] in L2. apply fair_try; [apply fit_l2up, F2 | intros w X; split; [lia | exact (bound_page _ _ _ _ _ X)]|]. intros up _.
    apply fair_nil; [apply fit_l2i, fit_l2up, fit_l2up, F2 | intros w X; split; [lia | exact (upper_page _ _ _ X)]|]. intros v V. assert (VB : -1 <= v < B) by (refine (so_l2 B _ _ _ v V); apply sound_l2i, sound_l2up, sound_l2up, (fi_sound _ _ F2)).
    apply fair_set; [apply fit_l2i, fit_l2up, fit_l2up, F2 | cbn [w_l2i w_l2up n_ctx]; lia | lia | lia|]. intros m3 F3 _ _. apply fair_ok, F3. }
  destruct (c =? 2) eqn:C2.
  { apply fair_try; [exact F | intros w X; split; [lia | exact (lower_page _ _ _ X)]|]. intros lo _. cbv zeta. assert (F1 : fit B (w_l3lo lo n)) by (apply fit_l3lo, F). destruct (lo =? -1); [apply fair_ok, F1|].
    apply fair_set; [exact F1 | cbn [w_l3lo n_ctx]; lia | lia | cbn [w_l3lo n_ctx]; lia|]. intros m F2 L2 _. cbn [w_l3lo n_ctx] in L2. apply fair_try; [apply fit_l3up, F2 | intros w X; split; [lia | exact (bound_page _ _ _ _ _ X)]|]. intros up _.
    apply fair_nil; [apply fit_l3i, fit_l3up, fit_l3up, F2 | intros w X; split; [lia | exact (upper_page _ _ _ X)]|]. intros v V. assert (VB : -1 <= v < B) by (refine (so_l2 B _ _ _ v V); apply sound_l3i, sound_l3up, sound_l3up, (fi_sound _ _ F2)).
    apply fair_set; [apply fit_l3i, fit_l3up, fit_l3up, F2 | cbn [w_l3i w_l3up n_ctx]; lia | lia | lia|]. intros m3 F3 _ _. apply fair_ok, F3. }
  apply fair_weaken. destruct f; [apply (fair_first B n c) | apply (fair_last B n c)]; assumption || lia.
Qed.
Definition child_dir (d : Z) : Prop := d = DirFirstChild \/ d = DirLastChild.
Lemma fair_move B n d c : fit B n -> ctxAt n 0 = Ok c -> fair B (fun w => child_dir d /\ paging c w) (toElement n d).
Proof.
  intros F E. unfold toElement. destruct (d =? DirRoot); [apply fair_weaken, fair_root, F|]. destruct (d =? DirParent); [apply fair_weaken, fair_parent, F|].
  destruct ((d =? DirFirstChild) || (d =? DirLastChild)) eqn:D.
  - destruct (fair_child B n (d =? DirFirstChild) c F E) as (F1 & P). split; [exact F1|]. intros w W. split; [unfold child_dir; lia | exact (P w W)].
  - destruct ((d =? DirNextSibling) || (d =? DirPrevSibling)); [apply fair_weaken, fair_sibling, F|]. split; [exact F | intros w; discriminate].
Qed.
Lemma fit_moves B dirs : forall n, fit B n -> fit B (after_moves n dirs).
Proof. induction dirs as [|d l IH]; intros n F; [exact F|]. destruct (fit_c0 _ _ F) as (c & E & _). exact (IH _ (proj1 (fair_move B n d c F E))). Qed.

Lemma fit_parsed opts s o l depth enc ns bytes n : Forall go_value opts -> runParser opts = Parsed s ->
  newVtdNav (s_rootIndex s) o l depth enc ns bytes (s_vtd s) (s_l1 s) (s_l2 s) (s_l3 s) = Ok n ->
  4 <= depth -> (forall i d, getTokenDepth n i = Ok d -> d < depth) -> fit (b_size (s_vtd s)) n.
Proof.
  intros F E N D4 DD. pose proof (sound_parsed _ _ _ _ _ _ _ _ _ F E N) as S.
  destruct (parsed_done opts s F E) as (t & Hw & _ & _ & _ & _ & _ & _ & _ & _ & H1 & _).
  unfold newVtdNav in N. destruct (depth <? 0); [discriminate N|]. destruct (newUniByteBuffer bytes) as [xml|x|x]; cbn [obind] in N; [|discriminate N..]. injection N as N. assert (L : zlen (n_ctx n) = depth) by (rewrite <- N; cbn [n_ctx]; unfold zlen; rewrite repeat_length; lia).
    split; [exact S | rewrite <- N; exact (quiet_holds _ _ Hw) | rewrite <- N; exact (hushed_holds _ _ H1) | rewrite <- N; cbn [n_l1i]; lia | lia | | intros i k K; rewrite L; exact (DD i k K)].
    exists (-1). split; [|lia]. destruct (proj2 (znth_some_iff (n_ctx n) 0) ltac:(lia)) as (v & EV). rewrite EV. f_equal. rewrite <- N in EV. cbn [n_ctx] in EV. unfold znth in EV. destruct (_ || _) in EV; [discriminate EV|]. apply nth_error_In in EV. exact (repeat_spec _ _ _ EV).
Qed.
(** ** C124: over the tables of a parse, with a context for every depth of the document,
    only FirstChild and LastChild can panic, and only from a child or a grandchild of the root. *)
Theorem C124_panic_where_partial : forall opts s o l depth enc ns bytes n, Forall go_value opts -> runParser opts = Parsed s ->
  newVtdNav (s_rootIndex s) o l depth enc ns bytes (s_vtd s) (s_l1 s) (s_l2 s) (s_l3 s) = Ok n ->
  4 <= depth -> (forall i d, getTokenDepth n i = Ok d -> d < depth) ->
  forall dirs d w, snd (toElement (after_moves n dirs) d) = Panic w ->
  child_dir d /\ w = PnPage /\ (ctxAt (after_moves n dirs) 0 = Ok 1 \/ ctxAt (after_moves n dirs) 0 = Ok 2).
Proof.
  intros opts s o l depth enc ns bytes n F E N D4 DD dirs d w X. pose proof (fit_parsed opts s o l depth enc ns bytes n F E N D4 DD) as FT.
  pose proof (fit_moves _ dirs _ FT) as FM. destruct (fit_c0 _ _ FM) as (c & EC & _). destruct (proj2 (fair_move _ _ d c FM EC) w X) as (CD & C12 & W). split; [exact CD|]. split; [exact W|]. destruct C12 as [->| ->]; auto.
Qed.
Print Assumptions C124_panic_where_partial.
(** A context of 255 entries is enough for every document. *)
Lemma depth_small n i d : getTokenDepth n i = Ok d -> d < 255.
Proof.
  unfold getTokenDepth. destruct (longAt (n_vtd n) i) as [v|e|w]; cbn [obind]; intros E; [|discriminate E..]. assert (X : tokDepth v = d) by (exact (f_equal (fun o => match o with Ok a => a | _ => d end) E)). rewrite <- X.
  rewrite tokDepth_field. unfold field_depth. pose proof (Z.mod_pos_bound (unsigned64 v / 2^52) (2^8) ltac:(lia)). change (2^8) with 256 in *. destruct (_ =? 255) eqn:Q; lia.
Qed.
Theorem C124_deep_context_partial : forall opts s o l depth enc ns bytes n, Forall go_value opts -> runParser opts = Parsed s ->
  newVtdNav (s_rootIndex s) o l depth enc ns bytes (s_vtd s) (s_l1 s) (s_l2 s) (s_l3 s) = Ok n -> 255 <= depth ->
  forall dirs d w, snd (toElement (after_moves n dirs) d) = Panic w ->
  child_dir d /\ w = PnPage /\ (ctxAt (after_moves n dirs) 0 = Ok 1 \/ ctxAt (after_moves n dirs) 0 = Ok 2).
Proof.
  intros opts s o l depth enc ns bytes n F E N D. refine (C124_panic_where_partial opts s o l depth enc ns bytes n F E N ltac:(lia) _). intros i d G. pose proof (depth_small _ _ _ G). lia.
Qed.
Print Assumptions C124_deep_context_partial.
(** From the first level only a document with many grandchildren of the root panics: the
    mark of an element without child elements, 65535, is taken for a position. *)
Fixpoint count_depth (k : Z) (tags : list (Z * Z)) : Z := match tags with [] => 0 | e :: t => (if snd e =? k then 1 else 0) + count_depth k t end.
Lemma count_bounds k tags : 0 <= count_depth k tags <= zlen tags.
Proof. induction tags as [|e t IH]; cbn [count_depth]; [change (zlen (@nil (Z * Z))) with 0; lia|]. rewrite zlen_cons. destruct (snd e =? k); lia. Qed.
Lemma level_count k tags : forall seen, zlen (level k seen tags) = count_depth k tags.
Proof. induction tags as [|(i, d) t IH]; intros seen; cbn [level count_depth snd]; [reflexivity|]. destruct (d =? k); [rewrite zlen_cons, IH; lia | rewrite IH; lia]. Qed.
Lemma level_child k tags : forall seen, 0 <= seen -> seen + zlen tags <= 2^31 -> Forall (fun w => entry_child w = 65535 \/ 0 <= entry_child w < seen + count_depth (k + 1) tags) (level k seen tags).
Proof.
  assert (P : forall i c, 0 <= c < 2^31 -> entry_child (i * 2^32 + c) = c).
  { intros i c C. unfold entry_child. cbv zeta. rewrite Z.add_comm, Z_mod_plus_full, (Z.mod_small c) by lia. replace (c <? 2^31) with true by lia. reflexivity. }
  induction tags as [|(i, d) t IH]; intros seen Z0 L; cbn [level]; [constructor|]. rewrite zlen_cons in L. pose proof (zlen_nonneg t). pose proof (count_bounds (k + 1) t). cbn [count_depth snd]. destruct (d =? k) eqn:D.
  - replace (d =? k + 1) with false by lia. constructor; [|rewrite Z.add_0_l; apply IH; lia]. unfold node_entry, leaf_entry. destruct t as [|(j, d') t']; [left; apply P; lia|]. destruct (d' =? k + 1) eqn:D'; [|left; apply P; lia]. right. rewrite P by lia. cbn [count_depth snd]. rewrite D'. pose proof (count_bounds (k + 1) t'). lia.
  - destruct (d =? k + 1); [rewrite Z.add_assoc; apply IH; lia | rewrite Z.add_0_l; apply IH; lia].
Qed.
Lemma lower_in b ws (Q : Z -> Prop) i v : holds b ws -> Forall (fun w => Q (entry_child w)) ws -> lower32At b i = Ok v -> Q v.
Proof.
  intros (e & R) F E. unfold lower32At in E. destruct (longAt b i) as [w|x|x] eqn:L; [|discriminate E..]. rewrite lower32_entry in E. assert (X : entry_child w = v) by (exact (f_equal (fun o => match o with Ok a => a | _ => v end) E)). rewrite <- X.
  apply (bat_read _ _ _ _ i w R) in L. destruct L as (V & _). rewrite <- znth_value_at in V. rewrite Forall_forall in F. apply F. unfold znth in V. destruct (_ || _) in V; [discriminate V | exact (nth_error_In _ _ V)].
Qed.
Lemma bound_value b : forall k i d r, upperBoundLoop k b i d = Ok r -> r = d \/ exists j v, lower32At b j = Ok v /\ r = wrap32 (v - 1).
Proof.
  induction k as [|k IH]; intros i d r E; cbn [upperBoundLoop] in E; [left; congruence|]. destruct (lower32At b i) as [v|e|w] eqn:L; cbn [obind] in E; [|discriminate E..]. destruct (_ =? _) in E; [exact (IH _ _ _ E)|]. right. exists i, v. split; [exact L|].
  exact (f_equal (fun o => match o with Ok a => a | _ => r end) (eq_sym E)).
Qed.
Lemma set_l2lo n v i x m : ctxSet (w_l2lo v n) i x = Ok m -> n_l2lo m = v.
Proof. unfold ctxSet. destruct (zupd _ i x); [intros [= <-]; reflexivity | discriminate]. Qed.
Record sparse (n : nav) : Prop := Sparse {
  sp_low : forall i v, lower32At (n_l1 n) i = Ok v -> v = 65535 \/ 0 <= v < b_size (n_l2 n);
  sp_max : b_size (n_l2 n) <= 2^31; sp_min : 0 <= b_size (n_l2 n);
  sp_calm : forall i, i < b_size (n_l2 n) \/ i = 65534 \/ i = 65535 -> calm (longAt (n_l2 n) i) }.
Lemma sparse_steady n m : steady n m -> sparse n -> sparse m.
Proof. intros S [a b c d]. split; rewrite ?(st_l1 _ _ S), ?(st_l2 _ _ S); assumption. Qed.
Lemma sparse_child B n f : fit B n -> sparse n -> ctxAt n 0 = Ok 1 -> calm (snd (toChildElement n f)).
Proof.
  intros F S E w. unfold toChildElement. rewrite (so_term _ _ (fi_sound _ _ F)), E. cbn [mtry]. pose proof (fi_len _ _ F) as LE. pose proof (sp_max _ S) as SM. pose proof (sp_min _ S) as S0. change (1 =? -1) with false. change (1 =? 0) with false. change (1 =? 1) with true. cbv iota.
  pose proof (lower_calm _ _ (fi_l1 _ _ F _ (fi_l1i _ _ F))) as LC. destruct (lower32At (n_l1 n) (n_l1i n)) as [lo|x|x] eqn:EL; cbn [mtry]; cbv zeta; [|discriminate | destruct (LC x eq_refl)].
  destruct (lo =? -1); [discriminate|]. assert (F1 : fit B (w_l2lo lo n)) by (apply fit_l2lo, F).
  destruct (fit_set B _ 0 2 F1 ltac:(cbn [w_l2lo n_ctx]; lia) ltac:(lia) ltac:(cbn [w_l2lo n_ctx]; lia)) as (m & ES & F2 & L2 & _). rewrite ES. cbn [mtry].
  assert (ST : steady n m) by (exact (steady_set n _ _ _ _ (steady_l2lo n n lo (steady_refl n)) ES)). assert (EM : n_l2lo m = lo) by (apply set_l2lo in ES; exact ES).
  pose proof (ubound_calm (n_l1 m) (n_l1i m + 1) (wrap32 (b_size (n_l2 m) - 1)) (fi_l1 _ _ F2)) as UC. cbn [w_l2up n_l1 n_l1i n_l2 n_l2up]. cbn [w_l2up n_l1 n_l1i n_l2 n_l2up] in UC.
  destruct (upperBound (n_l1 m) (n_l1i m + 1) (wrap32 (b_size (n_l2 m) - 1))) as [up|x|x] eqn:EU; cbn [mtry]; [|discriminate | destruct (UC x eq_refl)].
  cbn [w_l2i w_l2up n_l2 n_l2i n_l2lo n_l2up]. rewrite EM, (st_l2 _ _ ST).
  assert (J : calm (longAt (n_l2 n) (if f then lo else up))).
  { apply (sp_calm _ S). destruct f; [destruct (sp_low _ S _ _ EL) as [->|X]; lia|]. unfold upperBound in EU. destruct (bound_value _ _ _ _ _ EU) as [->|(j & v & EV & ->)].
    - rewrite (st_l2 _ _ ST). rewrite (wrap32_id (b_size (n_l2 n) - 1)) by lia. lia.
    - rewrite (st_l1 _ _ ST) in EV. destruct (sp_low _ S _ _ EV) as [->|X]; [right; left; reflexivity|]. rewrite (wrap32_id (v - 1)) by lia. lia. }
  unfold upper32At. destruct (longAt (n_l2 n) (if f then lo else up)) as [v|x|x] eqn:EV; cbn [mtryNil]; [|discriminate | destruct (J x eq_refl)].
  set (n4 := w_l2i _ _). assert (F4 : fit B n4) by (apply fit_l2i, fit_l2up, fit_l2up, F2). destruct (proj2 (zupd_some_iff (n_ctx n4) 2 (upper32 v)) ltac:(pose proof (fi_len _ _ F4); lia)) as (l & EZ). unfold ctxSet. rewrite EZ. cbn [mtry snd]. discriminate.
Qed.
Theorem C124_level_one_partial : forall opts s o l depth enc ns bytes n, Forall go_value opts -> runParser opts = Parsed s ->
  newVtdNav (s_rootIndex s) o l depth enc ns bytes (s_vtd s) (s_l1 s) (s_l2 s) (s_l3 s) = Ok n -> 255 <= depth ->
  b_size (s_l2 s) * nth 2 (page_sizes (snd (window_of opts))) 0 <= 65534 ->
  forall dirs d w, snd (toElement (after_moves n dirs) d) = Panic w -> child_dir d /\ w = PnPage /\ ctxAt (after_moves n dirs) 0 = Ok 2.
Proof.
  intros opts s o l depth enc ns bytes n F E N D SP dirs d w X. destruct (C124_deep_context_partial opts s o l depth enc ns bytes n F E N D dirs d w X) as (CD & W & [C1|C2]); [|auto]. exfalso.
  assert (FT : fit (b_size (s_vtd s)) (after_moves n dirs)) by (apply fit_moves, (fit_parsed opts s o l depth enc ns bytes); try assumption; [lia|]; intros i k G; pose proof (depth_small _ _ _ G); lia).
  assert (SN : sparse n).
  { destruct (parsed_done opts s F E) as (t & Hw & T & _ & HL). destruct (parsed_size opts s F E) as (_ & Bd). pose proof (holds_size _ _ Hw) as Sz. destruct HL as (_ & _ & _ & _ & _ & _ & H1 & H2 & _).
    unfold newVtdNav in N. destruct (depth <? 0); [discriminate N|]. destruct (newUniByteBuffer bytes) as [xml|x|x]; cbn [obind] in N; [|discriminate N..]. injection N as <-. set (tags := start_tags 0 (read_tokens t)) in *.
    pose proof (start_tags_length (read_tokens t) 0) as SL. rewrite read_tokens_len in SL. fold tags in SL.
    assert (Y : (forall i v, lower32At (s_l1 s) i = Ok v -> v = 65535 \/ 0 <= v < b_size (s_l2 s)) /\ 0 <= b_size (s_l2 s) <= 2^31).
    { rewrite (holds_size _ _ H2). destruct (shallow_of opts).
      - cbn [lc0 q_1 q_2] in *. split; [|change (zlen (@nil Z)) with 0; lia]. intros i v U. exact (lower_in _ _ (fun v => v = 65535 \/ 0 <= v < _) i v H1 (Forall_nil _) U).
      - destruct (final_levels (read_tokens t) T ltac:(rewrite read_tokens_len; lia)) as (_ & Q1 & Q2 & _). fold tags in Q1, Q2. rewrite Q1 in H1. rewrite Q2 in *. rewrite level_count. pose proof (count_bounds 2 tags). split; [|lia].
        intros i v U. refine (lower_in _ _ (fun v => v = 65535 \/ 0 <= v < count_depth 2 tags) i v H1 _ U). exact (level_child 1 tags 0 ltac:(lia) ltac:(lia)). }
    destruct Y as (Y1 & Y2). split; cbn [n_l1 n_l2]; [exact Y1 | lia | lia|]. intros i I. destruct (Z.lt_ge_cases i (b_size (s_l2 s))) as [Lt|Ge]; [exact (quiet_holds _ _ H2 i Lt)|]. intros x PX.
    assert (IG : 65534 <= i) by lia. destruct H2 as (e & R). destruct (proj1 (bat_panics _ _ _ _ i R) (ex_intro _ x PX)) as (Hi & _ & Hp). rewrite <- (rp_size _ _ _ R) in Hp. pose proof (pow2_pos e ltac:(destruct R; lia)) as HP.
    destruct (shallow_of opts) eqn:Sh; [pose proof (Z.div_pos i (2^e) Hi HP); rewrite (rp_size _ _ _ R) in Hp; cbn in Hp; lia|].
    assert (PE : 2^e = nth 2 (page_sizes (snd (window_of opts))) 0).
    { destruct (ends_bufs opts s F (or_introl E)) as (_ & cf & XX & Lx & S). rewrite S, Sh, Lx in XX. rewrite <- vtd_rows. cbn [nth]. injection XX as X0 X1 X2 X3 X4 X5. f_equal. exact (eq_trans (eq_sym (rp_exp _ _ _ R)) X2). }
    rewrite <- PE in SP. pose proof (Z.div_le_lower_bound i (2^e) (b_size (s_l2 s)) HP ltac:(lia)). lia. }
  destruct CD as [->| ->]; [exact (sparse_child _ _ true FT (sparse_steady _ _ (steady_moves dirs n) SN) C1 w X) | exact (sparse_child _ _ false FT (sparse_steady _ _ (steady_moves dirs n) SN) C1 w X)].
Qed.
Print Assumptions C124_level_one_partial.
(** NextSibling on the second level walks on past the last entry (C111), and FirstChild
    then reads beyond the allocated pages. *)
Definition walk_off : string := "<a><e><f/><g/></e><b/></a>".
Theorem C124_moves_panic_refuted : exists t dirs d, match nav_over t with
  | Some n => (forall x, In x dirs -> x = DirFirstChild \/ x = DirNextSibling) /\ snd (toElement (after_moves n dirs) d) = Panic PnPage | None => False end.
Proof.
  exists walk_off, ([DirFirstChild; DirFirstChild; DirFirstChild] ++ repeat DirNextSibling 32), DirFirstChild.
  assert (V : match nav_over walk_off with Some n => match snd (toElement (after_moves n ([DirFirstChild; DirFirstChild; DirFirstChild] ++ repeat DirNextSibling 32)) DirFirstChild) with Panic PnPage => True | _ => False end | None => False end) by (vm_compute; exact I).
  destruct (nav_over walk_off) as [n|]; [|exact V]. split.
  - intros x. cbn [repeat app In]. intros H. repeat (destruct H as [<-|H]; [unfold DirFirstChild, DirNextSibling; lia|]). destruct H.
  - destruct (snd _) as [| |w]; [destruct V | destruct V|]. destruct w; try destruct V. reflexivity.
Qed.
Print Assumptions C124_moves_panic_refuted.
(** The tokens of the example have depths up to 2; the context has 8 entries. *)
Example C124_example : match nav_over walk_off with Some n => zlen (n_ctx n) = 8 /\ b_size (n_vtd n) = 6 /\
  forallb (fun i => match getTokenDepth n i with Ok d => d <? 8 | _ => false end) [0; 1; 2; 3; 4; 5] = true | None => False end.
Proof. vm_compute. repeat split. Qed.
