(** Moves inside the location cache; failed moves. *)
From Verif Require Import Lib Buffer ParserPrim Nav BufferProofs SpecToken TokenProofs SpecNav NavMoveProofs.

Lemma lower32_entry v : lower32 v = entry_child v.
Proof. unfold lower32, wrap32, entry_child. destruct (v mod 2^32 <? 2^31) eqn:E; lia. Qed.
Lemma upper32_entry v : upper32 v = entry_token v.
Proof. apply upper32_spec. Qed.
Lemma entry_child_range v : -2^31 <= entry_child v < 2^31.
Proof. rewrite <- lower32_entry. apply lower32_spec. Qed.

(** ** Cursors that differ only in stale cache positions *)
Definition base (n : nav) : nav :=
  mkNav [] (n_root n) (n_enc n) (n_ns n) (n_term n) (n_ln n) (n_xml n) (n_vtd n) (n_l1 n) (n_l2 n) (n_l3 n) 0 0 0 0 0 0 0.
Definition pos2 (n : nav) : Z * Z * Z := (n_l2i n, n_l2lo n, n_l2up n).
Definition pos3 (n : nav) : Z * Z * Z := (n_l3i n, n_l3lo n, n_l3up n).
(** [agree k]: equal positions for levels 1..k *)
Definition agree (d : Z) (n m : nav) : Prop :=
  (1 <= d -> n_l1i m = n_l1i n) /\ (2 <= d -> pos2 m = pos2 n) /\ (3 <= d -> pos3 m = pos3 n).
Definition same_place (n m : nav) : Prop :=
  base m = base n /\ n_ctx m = n_ctx n /\ forall c, znth (n_ctx n) 0 = Some c -> agree c n m.
Lemma agree_refl d n : agree d n n.
Proof. repeat split. Qed.
Lemma agree_le d e n m : d <= e -> agree e n m -> agree d n m.
Proof. intros H (A & B & C). repeat split; intros; [apply A | apply B | apply C]; lia. Qed.
Lemma same_refl n : same_place n n.
Proof. split; [reflexivity|]. split; [reflexivity|]. intros; apply agree_refl. Qed.
Lemma same_sym n m : same_place n m -> same_place m n.
Proof.
  intros (A & B & C). split; [congruence|]. split; [congruence|]. intros c Hc. rewrite B in Hc.
  destruct (C c Hc) as (X & Y & Z). repeat split; intros L; symmetry; auto.
Qed.
Lemma same_trans a b c : same_place a b -> same_place b c -> same_place a c.
Proof.
  intros (A & B & C) (A' & B' & C'). split; [congruence|]. split; [congruence|]. intros x Hx.
  destruct (C x Hx) as (X & Y & Z). rewrite <- B in Hx. destruct (C' x Hx) as (X' & Y' & Z').
  repeat split; intros L; [rewrite X', X by exact L | rewrite Y', Y by exact L | rewrite Z', Z by exact L]; reflexivity.
Qed.
Section Base.
Variables n m : nav.
Hypothesis H : base m = base n.
Lemma base_root : n_root m = n_root n. Proof. exact (f_equal n_root H). Qed.
Lemma base_term : n_term m = n_term n. Proof. exact (f_equal n_term H). Qed.
Lemma base_ln : n_ln m = n_ln n. Proof. exact (f_equal n_ln H). Qed.
Lemma base_vtd : n_vtd m = n_vtd n. Proof. exact (f_equal n_vtd H). Qed.
Lemma base_l1 : n_l1 m = n_l1 n. Proof. exact (f_equal n_l1 H). Qed.
Lemma base_l2 : n_l2 m = n_l2 n. Proof. exact (f_equal n_l2 H). Qed.
Lemma base_l3 : n_l3 m = n_l3 n. Proof. exact (f_equal n_l3 H). Qed.
End Base.
Lemma nav_eta n m : base m = base n -> n_ctx m = n_ctx n -> n_l1i m = n_l1i n -> pos2 m = pos2 n -> pos3 m = pos3 n -> n = m.
Proof.
  intros H1 H2 H3 H4 H5. destruct n, m. unfold base, pos2, pos3 in *. cbn in *.
  injection H1; injection H4; injection H5; intros; subst; reflexivity.
Qed.
Lemma same_current n m : same_place n m -> getCurrentIndex m = getCurrentIndex n.
Proof.
  intros (A & B & _). unfold getCurrentIndex, ctxAt.
  rewrite B, (base_term _ _ A), (base_ln _ _ A), (base_root _ _ A). reflexivity.
Qed.

(** ** A cursor over a usable location cache *)
Record cache_ok (n : nav) (ws1 ws2 : list Z) : Prop := mkCache {
  co_l1 : views (n_l1 n) ws1;
  co_l2 : views (n_l2 n) ws2;
  co_links : links ws1 (zlen ws2);
  co_term : n_term n = false }.
Record cursor_ok (n : nav) (ws1 ws2 : list Z) (c : Z) : Prop := mkCur {
  cu_c : znth (n_ctx n) 0 = Some c;
  cu_lo : -1 <= c < zlen (n_ctx n);
  cu_1 : 1 <= c -> 0 <= n_l1i n < zlen ws1;
  cu_2 : 2 <= c -> 0 <= n_l2lo n <= n_l2i n /\ n_l2i n <= n_l2up n < zlen ws2 }.

Lemma view_upper b ws i w : views b ws -> znth ws i = Some w -> upper32At b i = Ok (entry_token w).
Proof. intros (_ & _ & H) E. unfold upper32At. rewrite (H _ _ E), upper32_entry. reflexivity. Qed.
Lemma view_lower b ws i w : views b ws -> znth ws i = Some w -> lower32At b i = Ok (entry_child w).
Proof. intros (_ & _ & H) E. unfold lower32At. rewrite (H _ _ E), lower32_entry. reflexivity. Qed.

Lemma entry_u32 w : (u32 (entry_child w) =? 0xffffffff) = (entry_child w =? -1).
Proof. pose proof (entry_child_range w). unfold u32. lia. Qed.
Lemma upperBoundLoop_spec b ws dflt : views b ws -> forall k i, 0 <= i -> k = Z.to_nat (zlen ws - i) ->
  exists up, upperBoundLoop k b i dflt = Ok up /\
  ((exists j w, i <= j /\ znth ws j = Some w /\ entry_child w <> -1 /\ up = wrap32 (entry_child w - 1) /\
      forall m v, i <= m < j -> znth ws m = Some v -> entry_child v = -1) \/
   (up = dflt /\ forall m v, i <= m -> znth ws m = Some v -> entry_child v = -1)).
Proof.
  intros Hv. induction k as [|k IH]; intros i Hi Hk.
  - exists dflt. split; [reflexivity|]. right. split; [reflexivity|]. intros m v Hm E. pose proof (znth_range _ _ _ E). lia.
  - destruct (proj2 (znth_some_iff ws i) ltac:(lia)) as [w Hw]. cbn [upperBoundLoop].
    rewrite (view_lower _ _ _ _ Hv Hw). cbn [obind]. rewrite entry_u32. destruct (entry_child w =? -1) eqn:E.
    + destruct (IH (i + 1) ltac:(lia) ltac:(lia)) as (up & H1 & H2). exists up. split; [exact H1|].
      destruct H2 as [(j & w' & J1 & J2 & J3 & J4 & J5)|(U & J)]; [left; exists j, w' | right; split; [exact U|]].
      * repeat split; try assumption; [lia|]. intros m v Hm Em. destruct (Z.eq_dec m i) as [->|]; [assert (v = w) by congruence; subst; lia | apply (J5 m); [lia | exact Em]].
      * intros m v Hm Em. destruct (Z.eq_dec m i) as [->|]; [assert (v = w) by congruence; subst; lia | apply (J m); [lia | exact Em]].
    + eexists. split; [reflexivity|]. left. exists i, w. repeat split; [lia | exact Hw | lia|]. intros; lia.
Qed.
(** A leaf has no range, any other entry has one, inside the next level. *)
Lemma upperBound_range b ws n2 i w : views b ws -> links ws n2 -> n2 < 2^31 -> znth ws i = Some w -> entry_child w <> -1 ->
  exists up, upperBound b (i + 1) (wrap32 (n2 - 1)) = Ok up /\ child_range ws n2 i (entry_child w) up /\
    0 <= entry_child w <= up /\ up < n2.
Proof.
  intros Hv (L1 & L2) Hn Hw Hne. pose proof (znth_range _ _ _ Hw) as Hr. unfold upperBound.
  pose proof Hv as (Hsz & _ & _). rewrite Hsz.
  destruct (upperBoundLoop_spec b ws (wrap32 (n2 - 1)) Hv _ (i + 1) ltac:(lia) eq_refl) as (up & E & S).
  exists up. split; [exact E|].
  assert (Hw' : nth_error ws (Z.to_nat i) = Some w) by (rewrite <- znth_nth by lia; exact Hw).
  destruct (L1 _ _ Hw') as [?|Rg]; [contradiction|].
  destruct S as [(j & v & J1 & J2 & J3 & J4 & J5)|(U & J)].
  - pose proof (znth_range _ _ _ J2). assert (J2' : nth_error ws (Z.to_nat j) = Some v) by (rewrite <- znth_nth by lia; exact J2).
    destruct (L1 _ _ J2') as [?|Rg2]; [contradiction|].
    assert (LT : (Z.to_nat i < Z.to_nat j)%nat) by lia. pose proof (L2 _ _ _ _ LT Hw' J2' Hne J3).
    rewrite wrap32_id in J4 by lia. subst up. split; [|lia].
    split; [lia|]. split; [exists w; auto|]. split; [exact Hne|]. left. exists j, v. repeat split; try assumption; [lia|].
    intros k x Hk Ex. apply (J5 k); [lia|]. rewrite znth_nth by lia. exact Ex.
  - rewrite wrap32_id in U by lia. subst up. split; [|lia].
    split; [lia|]. split; [exists w; auto|]. split; [exact Hne|]. right. split; [reflexivity|].
    intros k x Hk Ex. apply (J k); [lia|]. rewrite znth_nth by lia. exact Ex.
Qed.

Ltac navsimp := cbn [w_ctx w_term w_l1i w_l2i w_l3i w_l2lo w_l2up w_l3lo w_l3up
     n_ctx n_root n_enc n_ns n_term n_ln n_xml n_vtd n_l1 n_l2 n_l3 n_l1i n_l2i n_l3i n_l2lo n_l2up n_l3lo n_l3up].
(** ** Exact effect of the cached moves *)
Section Exact.
Variables (n : nav) (ws1 ws2 : list Z).
Hypothesis HC : cache_ok n ws1 ws2.
Let H1 := co_l1 _ _ _ HC. Let H2 := co_l2 _ _ _ HC. Let HL := co_links _ _ _ HC. Let HT := co_term _ _ _ HC.

Lemma child_at_m1 f : cursor_ok n ws1 ws2 (-1) ->
  toChildElement n f = (w_ctx (upd (n_ctx n) (Z.to_nat 0) 0) n, Ok true).
Proof.
  intros K. unfold toChildElement. rewrite HT. unfold ctxAt at 1. rewrite (cu_c _ _ _ _ K). cbn [mtry Z.eqb Z.compare].
  rewrite ctxSet_ok by (pose proof (znth_range _ _ _ (cu_c _ _ _ _ K)); lia). reflexivity.
Qed.
Lemma child_at_0_none f : cursor_ok n ws1 ws2 0 -> ws1 = [] -> toChildElement n f = (n, Ok false).
Proof.
  intros K E. unfold toChildElement. rewrite HT. unfold ctxAt at 1. rewrite (cu_c _ _ _ _ K). cbn [mtry Z.eqb Z.compare].
  destruct H1 as (S & _ & _). rewrite S, E. reflexivity.
Qed.
Lemma child_at_0 (f : bool) w : cursor_ok n ws1 ws2 0 -> znth ws1 (if f then 0 else zlen ws1 - 1) = Some w -> 1 < zlen (n_ctx n) ->
  toChildElement n f = (placed (w_l1i (if f then 0 else zlen ws1 - 1) n) 1 (entry_token w), Ok true).
Proof.
  intros K E R. unfold toChildElement. rewrite HT. unfold ctxAt at 1. rewrite (cu_c _ _ _ _ K). cbn [mtry].
  change (0 =? -1) with false. change (0 =? 0) with true. cbn iota.
  pose proof (znth_range _ _ _ E). destruct H1 as (S & M & A). rewrite S.
  destruct (zlen ws1 =? 0) eqn:EZ; [destruct f; lia|].
  rewrite ctxSet_ok by lia. cbn [mtry]. cbv zeta.
  set (v := if f then 0 else zlen ws1 - 1) in *.
  assert (U : upper32At (n_l1 n) v = Ok (entry_token w)) by (apply view_upper with ws1; [exact H1 | exact E]).
  cbn [w_l1i w_ctx n_l1 n_l1i]. rewrite U. cbn [mtry].
  unfold placed. rewrite ctxSet_ok by (navsimp; rewrite ?zlen_upd; lia). cbn [mtry]. reflexivity.
Qed.
Lemma child_at_1_leaf f w : cursor_ok n ws1 ws2 1 -> znth ws1 (n_l1i n) = Some w -> entry_child w = -1 ->
  toChildElement n f = (w_l2lo (-1) n, Ok false).
Proof.
  intros K E L. unfold toChildElement. rewrite HT. unfold ctxAt at 1. rewrite (cu_c _ _ _ _ K). cbn [mtry Z.eqb Z.compare Pos.eqb].
  rewrite (view_lower _ _ _ _ H1 E). cbn [mtry]. rewrite L. reflexivity.
Qed.
Lemma child_at_1 (f : bool) w up : cursor_ok n ws1 ws2 1 -> znth ws1 (n_l1i n) = Some w -> entry_child w <> -1 ->
  upperBound (n_l1 n) (n_l1i n + 1) (wrap32 (zlen ws2 - 1)) = Ok up -> 2 < zlen (n_ctx n) ->
  forall v, znth ws2 (if f then entry_child w else up) = Some v ->
  toChildElement n f = (placed (w_l2i (if f then entry_child w else up) (w_l2up up (w_l2lo (entry_child w) n))) 2 (entry_token v), Ok true).
Proof.
  intros K E L UB R v EV. unfold toChildElement. rewrite HT. unfold ctxAt at 1. rewrite (cu_c _ _ _ _ K).
  cbn [mtry]. change (1 =? -1) with false. change (1 =? 0) with false. change (1 =? 1) with true. cbn iota.
  rewrite (view_lower _ _ _ _ H1 E). cbn [mtry]. cbv zeta.
  destruct (entry_child w =? -1) eqn:EL; [lia|].
  rewrite ctxSet_ok by (cbn [w_l2lo n_ctx]; lia). cbn [mtry].
  cbn [w_l2up w_l2lo w_ctx w_l2i n_l1 n_l1i n_l2 n_l2up n_l2lo n_l2i n_ctx].
  destruct H2 as (S2 & _ & _). rewrite S2, UB. cbn [mtry].
  cbn [w_l2up w_l2lo w_ctx w_l2i n_l1 n_l1i n_l2 n_l2up n_l2lo n_l2i n_ctx].
  rewrite (view_upper _ _ _ _ H2 EV). cbn [mtryNil].
  rewrite ctxSet_ok by (navsimp; rewrite ?zlen_upd; lia). cbn [mtry]. reflexivity.
Qed.
Lemma child_at_2_leaf f w : cursor_ok n ws1 ws2 2 -> znth ws2 (n_l2i n) = Some w -> entry_child w = -1 ->
  toChildElement n f = (w_l3lo (-1) n, Ok false).
Proof.
  intros K E L. unfold toChildElement. rewrite HT. unfold ctxAt at 1. rewrite (cu_c _ _ _ _ K). cbn [mtry Z.eqb Z.compare Pos.eqb].
  rewrite (view_lower _ _ _ _ H2 E). cbn [mtry]. rewrite L. reflexivity.
Qed.
(** The level-2 entry itself is read again, not the level-3 one. *)
Lemma child_at_2 (f : bool) w : cursor_ok n ws1 ws2 2 -> znth ws2 (n_l2i n) = Some w -> entry_child w <> -1 -> 3 < zlen (n_ctx n) ->
  exists up, upperBound (n_l2 n) (n_l2i n + 1) (wrap32 (b_size (n_l3 n) - 1)) = Ok up /\
  toChildElement n f = (placed (w_l3i (if f then entry_child w else up) (w_l3up up (w_l3lo (entry_child w) n))) 3 (entry_token w), Ok true).
Proof.
  intros K E L R. pose proof (znth_range _ _ _ E).
  destruct (upperBoundLoop_spec _ _ (wrap32 (b_size (n_l3 n) - 1)) H2 _ (n_l2i n + 1) ltac:(lia) eq_refl) as (up & UB & _).
  assert (UB' : upperBound (n_l2 n) (n_l2i n + 1) (wrap32 (b_size (n_l3 n) - 1)) = Ok up) by (unfold upperBound; destruct H2 as (-> & _ & _); exact UB).
  exists up. split; [exact UB'|].
  unfold toChildElement. rewrite HT. unfold ctxAt at 1. rewrite (cu_c _ _ _ _ K).
  cbn [mtry]. change (2 =? -1) with false. change (2 =? 0) with false. change (2 =? 1) with false. change (2 =? 2) with true. cbn iota.
  rewrite (view_lower _ _ _ _ H2 E). cbn [mtry]. cbv zeta.
  destruct (entry_child w =? -1) eqn:EL; [lia|].
  rewrite ctxSet_ok by (cbn [w_l3lo n_ctx]; lia). cbn [mtry].
  cbn [w_l3up w_l3lo w_ctx w_l3i n_l1 n_l1i n_l2 n_l2i n_l3 n_l3up n_l3lo n_l3i n_ctx].
  rewrite UB'. cbn [mtry].
  cbn [w_l3up w_l3lo w_ctx w_l3i n_l1 n_l1i n_l2 n_l2i n_l3 n_l3up n_l3lo n_l3i n_ctx].
  rewrite (view_upper _ _ _ _ H2 E). cbn [mtryNil].
  rewrite ctxSet_ok by (navsimp; rewrite ?zlen_upd; lia). cbn [mtry]. reflexivity.
Qed.

Lemma sibling_at_low nx c : cursor_ok n ws1 ws2 c -> c <= 0 -> toSiblingElement n nx = (n, Ok false).
Proof.
  intros K L. unfold toSiblingElement. rewrite HT. unfold ctxAt at 1. rewrite (cu_c _ _ _ _ K). cbn [mtry].
  pose proof (cu_lo _ _ _ _ K). destruct ((c =? -1) || (c =? 0)) eqn:E; [reflexivity | lia].
Qed.
Definition stepBy (nx : bool) (i : Z) : Z := if nx then i + 1 else i - 1.
Lemma sibling_at_1 (nx : bool) : cursor_ok n ws1 ws2 1 ->
  toSiblingElement n nx =
  match znth ws1 (stepBy nx (n_l1i n)) with
  | None => (n, Ok false)
  | Some w => (w_ctx (upd (n_ctx n) (Z.to_nat 1) (entry_token w)) (w_l1i (stepBy nx (n_l1i n)) n), Ok true)
  end.
Proof.
  intros K. unfold toSiblingElement. rewrite HT. unfold ctxAt at 1. rewrite (cu_c _ _ _ _ K). cbn [mtry].
  change ((1 =? -1) || (1 =? 0)) with false. change (1 =? 1) with true. cbn iota.
  pose proof (cu_1 _ _ _ _ K ltac:(lia)) as R. pose proof (cu_lo _ _ _ _ K).
  destruct H1 as (S & M & A) eqn:HE. rewrite S. clear HE.
  destruct (znth ws1 (stepBy nx (n_l1i n))) as [w|] eqn:E.
  - pose proof (znth_range _ _ _ E) as RW. unfold stepBy in *.
    replace (if nx then zlen ws1 <=? n_l1i n + 1 else n_l1i n - 1 <? 0) with false by (destruct nx; lia).
    cbv zeta. cbn [w_l1i n_l1 n_l1i]. rewrite (view_upper _ _ _ _ (co_l1 _ _ _ HC) E). cbn [mtry].
    rewrite ctxSet_ok by (navsimp; lia). reflexivity.
  - apply znth_none_iff in E. unfold stepBy in *.
    replace (if nx then zlen ws1 <=? n_l1i n + 1 else n_l1i n - 1 <? 0) with true by (destruct nx; lia). reflexivity.
Qed.
(** Levels 2 and 3 show the level-1 ancestor again. *)
Lemma sibling_at_2 (nx : bool) w : cursor_ok n ws1 ws2 2 -> znth ws1 (n_l1i n) = Some w ->
  toSiblingElement n nx =
  if (if nx then n_l2up n <? n_l2i n + 1 else n_l2i n - 1 <? n_l2lo n) then (n, Ok false)
  else (w_ctx (upd (n_ctx n) (Z.to_nat 2) (entry_token w)) (w_l2i (stepBy nx (n_l2i n)) n), Ok true).
Proof.
  intros K E. unfold toSiblingElement. rewrite HT. unfold ctxAt at 1. rewrite (cu_c _ _ _ _ K). cbn [mtry].
  change ((2 =? -1) || (2 =? 0)) with false. change (2 =? 1) with false. change (2 =? 2) with true. cbn iota.
  pose proof (cu_lo _ _ _ _ K).
  destruct (if nx then n_l2up n <? n_l2i n + 1 else n_l2i n - 1 <? n_l2lo n); [reflexivity|].
  cbv zeta. cbn [w_l2i n_l1 n_l1i]. rewrite (view_upper _ _ _ _ H1 E). cbn [mtry].
  rewrite ctxSet_ok by (navsimp; lia). reflexivity.
Qed.
Lemma sibling_at_3 (nx : bool) w : cursor_ok n ws1 ws2 3 -> znth ws1 (n_l1i n) = Some w ->
  toSiblingElement n nx =
  if (if nx then n_l3up n <? n_l3i n + 1 else n_l3i n - 1 <? n_l3lo n) then (n, Ok false)
  else (w_ctx (upd (n_ctx n) (Z.to_nat 3) (entry_token w)) (w_l3i (stepBy nx (n_l3i n)) n), Ok true).
Proof.
  intros K E. unfold toSiblingElement. rewrite HT. unfold ctxAt at 1. rewrite (cu_c _ _ _ _ K). cbn [mtry].
  change ((3 =? -1) || (3 =? 0)) with false. change (3 =? 1) with false. change (3 =? 2) with false. change (3 =? 3) with true. cbn iota.
  pose proof (cu_lo _ _ _ _ K).
  destruct (if nx then n_l3up n <? n_l3i n + 1 else n_l3i n - 1 <? n_l3lo n); [reflexivity|].
  cbv zeta. cbn [w_l3i n_l1 n_l1i]. rewrite (view_upper _ _ _ _ H1 E). cbn [mtry].
  rewrite ctxSet_ok by (navsimp; lia). reflexivity.
Qed.
End Exact.
