(** Failed moves leave the cursor in place; cursors in the same place behave
    alike; the cursor invariant is kept.  All over a usable location cache. *)
From Verif Require Import Lib Buffer ParserPrim Nav BufferProofs SpecToken TokenProofs SpecNav NavMoveProofs NavCacheProofs.

Ltac dif1 := match goal with |- context [if ?c then _ else _] => destruct c end.
Definition panics (r : moved) : Prop := exists w, snd r = Panic w.
Definition no_gain (r : out bool) : Prop := r = Ok false \/ exists e, r = Err e.

Lemma same_ok n m ws1 ws2 c : same_place n m -> cache_ok n ws1 ws2 -> cursor_ok n ws1 ws2 c ->
  cache_ok m ws1 ws2 /\ cursor_ok m ws1 ws2 c.
Proof.
  intros (A & B & C) [H1 H2 HL HT] [K1 K2 K3 K4]. destruct (C c K1) as (X & Y & Z). split.
  - constructor; [rewrite (base_l1 _ _ A); exact H1 | rewrite (base_l2 _ _ A); exact H2 | exact HL | rewrite (base_term _ _ A); exact HT].
  - constructor; rewrite ?B; auto.
    + intros L. rewrite X by exact L. auto.
    + intros L. specialize (Y L). unfold pos2 in Y. injection Y as Y1 Y2 Y3. rewrite Y1, Y2, Y3. auto.
Qed.

(** ** No room in the context *)
Lemma child_at_0_short n ws1 ws2 f : cache_ok n ws1 ws2 -> cursor_ok n ws1 ws2 0 -> ws1 <> [] -> zlen (n_ctx n) <= 1 ->
  toChildElement n f = (fst (toChildElement n f), Panic PnContext).
Proof.
  intros [H1 H2 HL HT] K NE R. unfold toChildElement. rewrite HT. unfold ctxAt at 1 2. rewrite (cu_c _ _ _ _ K). cbn [mtry].
  change (0 =? -1) with false. change (0 =? 0) with true. cbn iota.
  pose proof (cu_lo _ _ _ _ K). pose proof H1 as (S & M & A). rewrite S.
  assert (0 < zlen ws1) by (destruct ws1; [congruence | rewrite zlen_cons; pose proof (zlen_nonneg ws1); lia]).
  destruct (zlen ws1 =? 0) eqn:EZ; [lia|].
  rewrite ctxSet_ok by lia. cbn [mtry]. cbv zeta. navsimp.
  destruct (proj2 (znth_some_iff ws1 (if f then 0 else zlen ws1 - 1)) ltac:(destruct f; lia)) as [w Hw].
  rewrite (view_upper _ _ _ _ H1 Hw). cbn [mtry]. unfold ctxSet at 1 2. navsimp. rewrite zupd_none by (rewrite zlen_upd; lia). reflexivity.
Qed.
Lemma child_at_1_short n ws1 ws2 f w : cache_ok n ws1 ws2 -> cursor_ok n ws1 ws2 1 -> znth ws1 (n_l1i n) = Some w -> entry_child w <> -1 ->
  zlen (n_ctx n) <= 2 -> toChildElement n f = (fst (toChildElement n f), Panic PnContext).
Proof.
  intros [H1 H2 HL HT] K E L R. pose proof H2 as (S2 & M2 & _).
  destruct (upperBound_range _ _ _ _ _ H1 HL M2 E L) as (up & UB & CR & B1 & B2).
  unfold toChildElement. rewrite HT. unfold ctxAt at 1 2. rewrite (cu_c _ _ _ _ K). cbn [mtry].
  change (1 =? -1) with false. change (1 =? 0) with false. change (1 =? 1) with true. cbn iota.
  rewrite (view_lower _ _ _ _ H1 E). cbn [mtry]. cbv zeta. destruct (entry_child w =? -1) eqn:EL; [lia|].
  pose proof (cu_lo _ _ _ _ K). rewrite ctxSet_ok by (navsimp; lia). cbn [mtry]. navsimp. rewrite S2, UB. cbn [mtry]. navsimp.
  destruct (proj2 (znth_some_iff ws2 (if f then entry_child w else up)) ltac:(destruct f; lia)) as [v Hv].
  rewrite (view_upper _ _ _ _ H2 Hv). cbn [mtryNil]. unfold ctxSet at 1 2. navsimp. rewrite zupd_none by (rewrite zlen_upd; lia). reflexivity.
Qed.
Lemma child_at_2_short n ws1 ws2 f w : cache_ok n ws1 ws2 -> cursor_ok n ws1 ws2 2 -> znth ws2 (n_l2i n) = Some w -> entry_child w <> -1 ->
  zlen (n_ctx n) <= 3 -> toChildElement n f = (fst (toChildElement n f), Panic PnContext).
Proof.
  intros [H1 H2 HL HT] K E L R. pose proof (znth_range _ _ _ E). pose proof H2 as (S2 & M2 & _).
  destruct (upperBoundLoop_spec _ _ (wrap32 (b_size (n_l3 n) - 1)) H2 _ (n_l2i n + 1) ltac:(lia) eq_refl) as (up & UB & _).
  assert (UB' : upperBound (n_l2 n) (n_l2i n + 1) (wrap32 (b_size (n_l3 n) - 1)) = Ok up) by (unfold upperBound; rewrite S2; exact UB).
  unfold toChildElement. rewrite HT. unfold ctxAt at 1 2. rewrite (cu_c _ _ _ _ K). cbn [mtry].
  change (2 =? -1) with false. change (2 =? 0) with false. change (2 =? 1) with false. change (2 =? 2) with true. cbn iota.
  rewrite (view_lower _ _ _ _ H2 E). cbn [mtry]. cbv zeta. destruct (entry_child w =? -1) eqn:EL; [lia|].
  pose proof (cu_lo _ _ _ _ K). rewrite ctxSet_ok by (navsimp; lia). cbn [mtry]. navsimp. rewrite UB'. cbn [mtry]. navsimp.
  rewrite (view_upper _ _ _ _ H2 E). cbn [mtryNil]. unfold ctxSet at 1 2. navsimp. rewrite zupd_none by (rewrite zlen_upd; lia). reflexivity.
Qed.

(** ** Deep moves touch only the context *)
Definition ctx_only (n n' : nav) : Prop :=
  base n' = base n /\ n_l1i n' = n_l1i n /\ pos2 n' = pos2 n /\ pos3 n' = pos3 n /\ zlen (n_ctx n') = zlen (n_ctx n).
Lemma ctx_only_refl n : ctx_only n n.
Proof. repeat split. Qed.
Lemma ctx_only_placed n d i : ctx_only n (placed n d i).
Proof. repeat split. cbn [placed w_ctx n_ctx]. rewrite !zlen_upd. reflexivity. Qed.

Definition deep_result (n : nav) (c d : Z) (r : moved) : Prop :=
  panics r \/ (fst r = n /\ no_gain (snd r)) \/
  (snd r = Ok true /\ ctx_only n (fst r) /\ znth (n_ctx (fst r)) 0 = Some d /\ d < zlen (n_ctx n)).
Lemma place_deep n c i d : 0 <= c -> d = c + 1 ->
  deep_result n c d (mtry n (ctxSet n 0 d) (fun n1 => mtry n1 (ctxSet n1 d i) (fun n2 => (n2, Ok true)))).
Proof.
  intros Hc ->. unfold deep_result, ctxSet. destruct (zupd (n_ctx n) 0 (c + 1)) as [c1|] eqn:E1; cbn [mtry].
  2:{ left. eexists; reflexivity. }
  navsimp. destruct (zupd c1 (c + 1) i) as [c2|] eqn:E2; cbn [mtry]; [|left; eexists; reflexivity].
  right; right. cbn [fst snd]. navsimp. pose proof (zupd_zlen _ _ _ _ E1) as L1. pose proof (zupd_zlen _ _ _ _ E2) as L2.
  assert (0 <= c + 1 < zlen c1) by (apply zupd_some_iff with i; eauto).
  repeat split; [cbn [w_ctx n_ctx]; congruence | | lia].
  rewrite (zupd_other _ _ _ _ _ E2) by lia. apply (zupd_same _ _ _ _ E1).
Qed.
Lemma firstChildLoop_deep n c : 0 <= c -> forall k i, deep_result n c (c + 1) (firstChildLoop k n c i).
Proof.
  intros Hc. assert (F : deep_result n c (c + 1) (n, Ok false)) by (right; left; split; [reflexivity | left; reflexivity]).
  induction k as [|k IH]; intros i; cbn [firstChildLoop]; [exact F|].
  destruct (getTokenType n i); cbn [mtryNil]; [|exact F|left; eexists; reflexivity].
  destruct (getTokenDepth n i); cbn [mtry]; [|right; left; split; [reflexivity | right; eexists; reflexivity]|left; eexists; reflexivity].
  destruct (_ =? _); [|apply IH]. destruct (_ <=? _); [exact F|]. destruct (_ =? _); [|apply IH]. apply place_deep; [exact Hc | reflexivity].
Qed.
Lemma child_deep n ws1 ws2 f c : cache_ok n ws1 ws2 -> cursor_ok n ws1 ws2 c -> 3 <= c -> deep_result n c (c + 1) (toChildElement n f).
Proof.
  intros [H1 H2 HL HT] K L. unfold toChildElement. rewrite HT. unfold ctxAt. rewrite (cu_c _ _ _ _ K). cbn [mtry].
  destruct (c =? -1) eqn:E0; [lia|]. destruct (c =? 0) eqn:E1; [lia|]. destruct (c =? 1) eqn:E2; [lia|]. destruct (c =? 2) eqn:E3; [lia|].
  destruct f.
  - unfold toFirstChild, ctxAt. rewrite (cu_c _ _ _ _ K). cbn [mtry].
    destruct (znth (n_ctx n) c); cbn [mtry]; [apply firstChildLoop_deep; lia | left; eexists; reflexivity].
  - unfold toLastChild, ctxAt. rewrite (cu_c _ _ _ _ K). cbn [mtry].
    destruct (znth (n_ctx n) c); cbn [mtry]; [|left; eexists; reflexivity].
    destruct (lastChildLoop _ _ _ _ _) as [[last|]|e|w]; cbn [mtry];
      [|right; left; split; [reflexivity | left; reflexivity] | right; left; split; [reflexivity | right; eexists; reflexivity] | left; eexists; reflexivity].
    destruct (last =? -1); [right; left; split; [reflexivity | left; reflexivity]|]. apply place_deep; [lia | reflexivity].
Qed.
Lemma prevLoop_deep n c : 0 < c -> znth (n_ctx n) 0 = Some c -> forall k i, deep_result n c c (prevSiblingLoop k n c i).
Proof.
  intros Hc H0. assert (F : deep_result n c c (n, Ok false)) by (right; left; split; [reflexivity | left; reflexivity]).
  induction k as [|k IH]; intros i; cbn [prevSiblingLoop]; [exact F|].
  destruct (getTokenType n i); cbn [mtryNil]; [|exact F|left; eexists; reflexivity].
  destruct (getTokenDepth n i); cbn [mtry]; [|right; left; split; [reflexivity | right; eexists; reflexivity]|left; eexists; reflexivity].
  dif; [|apply IH]. unfold ctxSet. destruct (zupd (n_ctx n) c (wrap32 i)) as [c1|] eqn:EU; cbn [mtry]; [|left; eexists; reflexivity].
  right; right. cbn [fst snd]. navsimp. assert (0 <= c < zlen (n_ctx n)) by (apply zupd_some_iff with (wrap32 i); eauto).
  repeat split; [cbn [w_ctx n_ctx]; apply (zupd_zlen _ _ _ _ EU) | rewrite (zupd_other _ _ _ _ _ EU) by lia; exact H0 | lia].
Qed.
Lemma sibling_deep n ws1 ws2 nx c : cache_ok n ws1 ws2 -> cursor_ok n ws1 ws2 c -> 4 <= c -> deep_result n c c (toSiblingElement n nx).
Proof.
  intros [H1 H2 HL HT] K L. unfold toSiblingElement. rewrite HT. unfold ctxAt. rewrite (cu_c _ _ _ _ K). cbn [mtry].
  destruct ((c =? -1) || (c =? 0)) eqn:E0; [lia|]. destruct (c =? 1) eqn:E1; [lia|]. destruct (c =? 2) eqn:E2; [lia|]. destruct (c =? 3) eqn:E3; [lia|].
  destruct nx.
  - unfold toNextSibling, ctxAt. rewrite (cu_c _ _ _ _ K). cbn [mtry].
    destruct (znth (n_ctx n) c); cbn [mtry]; [|left; eexists; reflexivity].
    destruct (nextSiblingLoop_never n c (Z.to_nat (b_size (n_vtd n) - wrap32 (z + 1))) (wrap32 (z + 1))) as [N1 N2].
    unfold deep_result. destruct (nextSiblingLoop _ _ _ _) as [n' [b|e|w]] eqn:EL; cbn [fst snd] in *.
    + right; left. split; [exact N2 | destruct b; [congruence | left; reflexivity]].
    + right; left. split; [exact N2 | right; eexists; reflexivity].
    + left. eexists; reflexivity.
  - unfold toPrevSibling, ctxAt. rewrite (cu_c _ _ _ _ K). cbn [mtry].
    destruct (znth (n_ctx n) c); cbn [mtry]; [|left; eexists; reflexivity].
    destruct (znth (n_ctx n) (c - 1)); cbn [mtry]; [|left; eexists; reflexivity].
    apply prevLoop_deep; [lia | exact (cu_c _ _ _ _ K)].
Qed.

(** ** The three facts *)
Definition cur_ok (n : nav) (ws1 ws2 : list Z) : Prop := cache_ok n ws1 ws2 /\ exists c, cursor_ok n ws1 ws2 c.

Lemma cache_base n n' ws1 ws2 : base n' = base n -> cache_ok n ws1 ws2 -> cache_ok n' ws1 ws2.
Proof.
  intros A [H1 H2 HL HT]. constructor; [rewrite (base_l1 _ _ A); exact H1 | rewrite (base_l2 _ _ A); exact H2 | exact HL | rewrite (base_term _ _ A); exact HT].
Qed.
Lemma ctx_only_ok n n' ws1 ws2 c d : cache_ok n ws1 ws2 -> cursor_ok n ws1 ws2 c -> 2 <= c -> ctx_only n n' ->
  znth (n_ctx n') 0 = Some d -> -1 <= d < zlen (n_ctx n) -> cur_ok n' ws1 ws2.
Proof.
  intros HC [K1 K2 K3 K4] L (A & B & C & D & E) Z0 R. split; [apply (cache_base n); assumption|]. exists d.
  unfold pos2 in C. injection C as C1 C2 C3.
  constructor; [exact Z0 | lia | intros _; rewrite B; apply K3; lia | intros _; rewrite C1, C2, C3; apply K4; lia].
Qed.

(** What any returning move does. *)
Definition good_result (n : nav) (ws1 ws2 : list Z) (r : moved) : Prop :=
  panics r \/
  (no_gain (snd r) /\ same_place n (fst r) /\ cur_ok (fst r) ws1 ws2) \/
  (snd r = Ok true /\ cur_ok (fst r) ws1 ws2).

Lemma good_same n ws1 ws2 m r : cur_ok n ws1 ws2 -> same_place n m -> no_gain r -> good_result n ws1 ws2 (m, r).
Proof.
  intros (HC & c & K) S N. right; left. split; [exact N|]. split; [exact S|]. destruct (same_ok _ _ _ _ _ S HC K). split; eauto.
Qed.
Lemma placed_0 n d i : 0 < d < zlen (n_ctx n) -> znth (n_ctx (placed n d i)) 0 = Some d.
Proof.
  intros H. cbn [placed w_ctx n_ctx]. rewrite znth_upd_other by (rewrite ?zlen_upd; lia). apply znth_upd_same. lia.
Qed.
Lemma placed_len n d i : zlen (n_ctx (placed n d i)) = zlen (n_ctx n).
Proof. cbn [placed w_ctx n_ctx]. rewrite !zlen_upd. reflexivity. Qed.
Lemma good_deep n ws1 ws2 c d r : cache_ok n ws1 ws2 -> cursor_ok n ws1 ws2 c -> 2 <= c -> -1 <= d -> deep_result n c d r -> good_result n ws1 ws2 r.
Proof.
  intros HC K L Ld [P|[(E & N)|(E & A & B & D)]]; [left; exact P | |].
  - destruct r as [m r]. cbn [fst snd] in *. subst m. apply good_same; [split; eauto | apply same_refl | exact N].
  - right; right. split; [exact E|]. apply (ctx_only_ok n _ ws1 ws2 c d); [exact HC | exact K | exact L | exact A | exact B | lia].
Qed.

Lemma child_good n ws1 ws2 f : cur_ok n ws1 ws2 -> good_result n ws1 ws2 (toChildElement n f).
Proof.
  intros OK. pose proof OK as (HC & c & K). pose proof (cu_lo _ _ _ _ K) as R.
  pose proof (co_l1 _ _ _ HC) as H1. pose proof (co_l2 _ _ _ HC) as H2. pose proof H1 as (S1 & M1 & _). pose proof H2 as (S2 & M2 & _).
  destruct (Z_lt_le_dec 2 c) as [Hd|Hd].
  { apply (good_deep n ws1 ws2 c (c + 1)); [exact HC | exact K | lia | lia | apply (child_deep n ws1 ws2); [exact HC | exact K | lia]]. }
  destruct (Z.eq_dec c (-1)) as [->|N1]; [|destruct (Z.eq_dec c 0) as [->|N2]; [|destruct (Z.eq_dec c 1) as [->|N3]; [|assert (c = 2) by lia; subst c]]].
  - rewrite (child_at_m1 n ws1 ws2 HC f K). right; right. split; [reflexivity|]. cbn [fst].
    split; [apply (cache_base n); [reflexivity | exact HC]|]. exists 0.
    pose proof (znth_range _ _ _ (cu_c _ _ _ _ K)). constructor; navsimp; rewrite ?zlen_upd; try lia. apply znth_upd_same. lia.
  - destruct ws1 as [|w0 ws1'] eqn:EW.
    + rewrite (child_at_0_none n [] ws2 HC f K eq_refl). apply good_same; [exact OK | apply same_refl | left; reflexivity].
    + rewrite <- EW in *. destruct (Z_lt_le_dec 1 (zlen (n_ctx n))) as [Rm|Rm].
      * assert (0 < zlen ws1) by (rewrite EW, zlen_cons; pose proof (zlen_nonneg ws1'); lia).
        destruct (proj2 (znth_some_iff ws1 (if f then 0 else zlen ws1 - 1)) ltac:(destruct f; lia)) as [w Hw].
        rewrite (child_at_0 n ws1 ws2 HC f w K Hw Rm). right; right. split; [reflexivity|]. cbn [fst].
        split; [apply (cache_base n); [reflexivity | exact HC]|]. exists 1.
        constructor; [apply placed_0; navsimp; lia | rewrite placed_len; navsimp; lia | intros _ | lia].
        apply znth_range in Hw. exact Hw.
      * left. rewrite (child_at_0_short n ws1 ws2 f HC K) by (try (rewrite EW; discriminate); lia). eexists; reflexivity.
  - destruct (proj2 (znth_some_iff ws1 (n_l1i n)) (cu_1 _ _ _ _ K ltac:(lia))) as [w Hw].
    destruct (Z.eq_dec (entry_child w) (-1)) as [EL|EL].
    + rewrite (child_at_1_leaf n ws1 ws2 HC f w K Hw EL). apply good_same; [exact OK | | left; reflexivity].
      split; [reflexivity|]. split; [reflexivity|]. intros x Hx. rewrite (cu_c _ _ _ _ K) in Hx. injection Hx as <-. repeat split; lia.
    + destruct (Z_lt_le_dec 2 (zlen (n_ctx n))) as [Rm|Rm].
      * destruct (upperBound_range _ _ _ _ _ H1 (co_links _ _ _ HC) M2 Hw EL) as (up & UB & CR & B1 & B2).
        destruct (proj2 (znth_some_iff ws2 (if f then entry_child w else up)) ltac:(destruct f; lia)) as [v Hv].
        rewrite (child_at_1 n ws1 ws2 HC f w up K Hw EL UB Rm v Hv). right; right. split; [reflexivity|]. cbn [fst].
        split; [apply (cache_base n); [reflexivity | exact HC]|]. exists 2.
        constructor; [apply placed_0; navsimp; lia | rewrite placed_len; navsimp; lia | intros _; cbn; apply (cu_1 _ _ _ _ K); lia | intros _].
        unfold placed. navsimp. destruct f; lia.
      * left. rewrite (child_at_1_short n ws1 ws2 f w HC K Hw EL) by lia. eexists; reflexivity.
  - pose proof (cu_2 _ _ _ _ K ltac:(lia)) as (Q1 & Q2). destruct (proj2 (znth_some_iff ws2 (n_l2i n)) ltac:(lia)) as [w Hw].
    destruct (Z.eq_dec (entry_child w) (-1)) as [EL|EL].
    + rewrite (child_at_2_leaf n ws1 ws2 HC f w K Hw EL). apply good_same; [exact OK | | left; reflexivity].
      split; [reflexivity|]. split; [reflexivity|]. intros x Hx. rewrite (cu_c _ _ _ _ K) in Hx. injection Hx as <-. repeat split; lia.
    + destruct (Z_lt_le_dec 3 (zlen (n_ctx n))) as [Rm|Rm].
      * destruct (child_at_2 n ws1 ws2 HC f w K Hw EL Rm) as (up & UB & ->). right; right. split; [reflexivity|]. cbn [fst].
        split; [apply (cache_base n); [reflexivity | exact HC]|]. exists 3.
        constructor; [apply placed_0; navsimp; lia | rewrite placed_len; navsimp; lia | intros _; cbn; apply (cu_1 _ _ _ _ K); lia | intros _].
        unfold placed. navsimp. lia.
      * left. rewrite (child_at_2_short n ws1 ws2 f w HC K Hw EL) by lia. eexists; reflexivity.
Qed.

Lemma sibling_good n ws1 ws2 nx : cur_ok n ws1 ws2 -> good_result n ws1 ws2 (toSiblingElement n nx).
Proof.
  intros OK. pose proof OK as (HC & c & K). pose proof (cu_lo _ _ _ _ K) as R.
  destruct (Z_lt_le_dec 3 c) as [Hd|Hd].
  { apply (good_deep n ws1 ws2 c c); [exact HC | exact K | lia | lia | apply (sibling_deep n ws1 ws2); [exact HC | exact K | lia]]. }
  destruct (Z_lt_le_dec 0 c) as [Hp|Hp].
  2:{ rewrite (sibling_at_low n ws1 ws2 HC nx c K Hp). apply good_same; [exact OK | apply same_refl | left; reflexivity]. }
  destruct (proj2 (znth_some_iff ws1 (n_l1i n)) (cu_1 _ _ _ _ K ltac:(lia))) as [w1 Hw1].
  assert (Stay : forall n' i, base n' = base n -> n_ctx n' = upd (n_ctx n) (Z.to_nat c) i ->
     (0 <= n_l1i n' < zlen ws1) -> (2 <= c -> 0 <= n_l2lo n' <= n_l2i n' /\ n_l2i n' <= n_l2up n' < zlen ws2) -> cur_ok n' ws1 ws2).
  { intros n' i A B C D. split; [apply (cache_base n); assumption|]. exists c. constructor; rewrite ?B, ?zlen_upd; auto.
    rewrite znth_upd_other by lia. exact (cu_c _ _ _ _ K). }
  destruct (Z.eq_dec c 1) as [->|N1]; [|destruct (Z.eq_dec c 2) as [->|N2]; [|assert (c = 3) by lia; subst c]].
  - rewrite (sibling_at_1 n ws1 ws2 HC nx K). destruct (znth ws1 (stepBy nx (n_l1i n))) as [w|] eqn:E.
    + right; right. split; [reflexivity|]. cbn [fst]. eapply Stay; [reflexivity | reflexivity | navsimp; apply znth_range with w; exact E | lia].
    + apply good_same; [exact OK | apply same_refl | left; reflexivity].
  - rewrite (sibling_at_2 n ws1 ws2 HC nx w1 K Hw1). pose proof (cu_2 _ _ _ _ K ltac:(lia)) as (Q1 & Q2).
    destruct (if nx then _ else _) eqn:E; [apply good_same; [exact OK | apply same_refl | left; reflexivity]|].
    right; right. split; [reflexivity|]. cbn [fst]. eapply Stay; [reflexivity | reflexivity | navsimp; apply (cu_1 _ _ _ _ K); lia|].
    intros _. navsimp. unfold stepBy. destruct nx; lia.
  - rewrite (sibling_at_3 n ws1 ws2 HC nx w1 K Hw1). pose proof (cu_2 _ _ _ _ K ltac:(lia)) as (Q1 & Q2).
    destruct (if nx then _ else _) eqn:E; [apply good_same; [exact OK | apply same_refl | left; reflexivity]|].
    right; right. split; [reflexivity|]. cbn [fst]. eapply Stay; [reflexivity | reflexivity | navsimp; apply (cu_1 _ _ _ _ K); lia|].
    intros _. navsimp. lia.
Qed.
Lemma w_term_id n : n_term n = false -> w_term false n = n.
Proof. intros H. destruct n. cbn in *. rewrite H. reflexivity. Qed.
Lemma root_exact n ws1 ws2 c : cache_ok n ws1 ws2 -> cursor_ok n ws1 ws2 c ->
  toRootElement n = (w_ctx (upd (n_ctx n) (Z.to_nat 0) 0) n, Ok true) \/ (c = 0 /\ toRootElement n = (n, Ok true)).
Proof.
  intros HC K. pose proof (znth_range _ _ _ (cu_c _ _ _ _ K)). unfold toRootElement, ctxAt. rewrite (cu_c _ _ _ _ K). cbn [mtry].
  destruct (c =? 0) eqn:E; cbn [mtry].
  - right. split; [lia|]. rewrite w_term_id by exact (co_term _ _ _ HC). reflexivity.
  - left. rewrite ctxSet_ok by lia. cbn [mtry]. rewrite w_term_id by exact (co_term _ _ _ HC). reflexivity.
Qed.
Lemma parent_exact n ws1 ws2 c : cache_ok n ws1 ws2 -> cursor_ok n ws1 ws2 c ->
  toParentElement n =
  if 0 <? c then (w_ctx (upd (upd (n_ctx n) (Z.to_nat c) (-1)) (Z.to_nat 0) (c - 1)) n, Ok true)
  else if c =? 0 then (w_ctx (upd (n_ctx n) (Z.to_nat 0) (-1)) n, Ok true)
  else (n, Ok false).
Proof.
  intros HC K. pose proof (znth_range _ _ _ (cu_c _ _ _ _ K)). pose proof (cu_lo _ _ _ _ K).
  unfold toParentElement. rewrite (co_term _ _ _ HC). unfold ctxAt at 1. rewrite (cu_c _ _ _ _ K). cbn [mtry].
  destruct (0 <? c) eqn:E.
  - rewrite ctxSet_ok by lia. cbn [mtry]. unfold ctxAt. navsimp. rewrite znth_upd_other by lia. rewrite (cu_c _ _ _ _ K). cbn [mtry].
    rewrite ctxSet_ok by (navsimp; rewrite zlen_upd; lia). reflexivity.
  - destruct (c =? 0) eqn:E0; [|reflexivity]. rewrite ctxSet_ok by lia. reflexivity.
Qed.
Lemma shallower_ok n ws1 ws2 c d ct : cache_ok n ws1 ws2 -> cursor_ok n ws1 ws2 c -> znth ct 0 = Some d -> zlen ct = zlen (n_ctx n) ->
  -1 <= d -> d <= c \/ d = 0 -> cur_ok (w_ctx ct n) ws1 ws2.
Proof.
  intros HC K Z L D1 D2. split; [apply (cache_base n); [reflexivity | exact HC]|]. exists d. pose proof (cu_lo _ _ _ _ K).
  constructor; navsimp; [exact Z | pose proof (znth_range _ _ _ Z); lia | intros; apply (cu_1 _ _ _ _ K); lia | intros; apply (cu_2 _ _ _ _ K); lia].
Qed.
Lemma toElement_good n ws1 ws2 dir : cur_ok n ws1 ws2 -> good_result n ws1 ws2 (toElement n dir).
Proof.
  intros OK. pose proof OK as (HC & c & K). pose proof (znth_range _ _ _ (cu_c _ _ _ _ K)) as R0. pose proof (cu_lo _ _ _ _ K) as RC.
  unfold toElement. destruct (dir =? DirRoot).
  { destruct (root_exact n ws1 ws2 c HC K) as [->|(-> & ->)]; right; right; (split; [reflexivity|]); cbn [fst]; [|exact OK].
    apply (shallower_ok n ws1 ws2 c 0); [exact HC | exact K | apply znth_upd_same; lia | apply zlen_upd | lia | lia]. }
  destruct (dir =? DirParent).
  { rewrite (parent_exact n ws1 ws2 c HC K). destruct (0 <? c) eqn:E.
    - right; right. split; [reflexivity|]. cbn [fst]. apply (shallower_ok n ws1 ws2 c (c - 1)); [exact HC | exact K | | rewrite !zlen_upd; reflexivity | lia | lia].
      apply znth_upd_same. rewrite zlen_upd. lia.
    - destruct (c =? 0) eqn:E0; [|apply good_same; [exact OK | apply same_refl | left; reflexivity]].
      right; right. split; [reflexivity|]. cbn [fst]. apply (shallower_ok n ws1 ws2 c (-1)); [exact HC | exact K | apply znth_upd_same; lia | apply zlen_upd | lia | lia]. }
  dif1; [apply child_good; exact OK|]. dif1; [apply sibling_good; exact OK|].
  apply good_same; [exact OK | apply same_refl | right; eexists; reflexivity].
Qed.

(** ** Cursors in the same place behave alike *)
Definition same_run (r s : moved) : Prop := snd r = snd s /\ (panics r \/ same_place (fst r) (fst s)).
Lemma same_run_panic r s w : snd r = Panic w -> snd s = Panic w -> same_run r s.
Proof. intros A B. split; [congruence | left; eexists; exact A]. Qed.
Lemma same_run_ctx n m c ct d r : same_place n m -> znth (n_ctx n) 0 = Some c -> znth ct 0 = Some d -> (d <= c \/ d <= 0) ->
  same_run (w_ctx ct n, r) (w_ctx ct m, r).
Proof.
  intros (A & B & C) E Z L. split; [reflexivity|]. right. cbn [fst]. split; [exact A|]. split; [reflexivity|].
  intros x Hx. navsimp. cbn [w_ctx n_ctx] in Hx. assert (x = d) by congruence. subst x.
  destruct L as [L|L]; [apply (agree_le d c) in C; [exact C | exact L | exact E] | repeat split; intros; lia].
Qed.
Lemma same_run_loc n m d i : base m = base n -> n_ctx m = n_ctx n -> agree d n m -> 0 < d < zlen (n_ctx n) ->
  same_run (placed n d i, Ok true) (placed m d i, Ok true).
Proof.
  intros A B C R. split; [reflexivity|]. right. cbn [fst]. split; [exact A|]. split; [unfold placed; navsimp; rewrite B; reflexivity|].
  intros x Hx. rewrite placed_0 in Hx by exact R. injection Hx as <-. exact C.
Qed.
Lemma child_sim n m ws1 ws2 f : same_place n m -> cur_ok n ws1 ws2 -> same_run (toChildElement n f) (toChildElement m f).
Proof.
  intros S (HC & c & K). destruct (same_ok _ _ _ _ _ S HC K) as [HC' K']. pose proof S as (A & B & C).
  specialize (C c (cu_c _ _ _ _ K)). destruct C as (C1 & C2 & C3). pose proof (cu_lo _ _ _ _ K) as R.
  pose proof (co_l1 _ _ _ HC) as H1. pose proof (co_l2 _ _ _ HC) as H2. pose proof H1 as (S1 & M1 & _). pose proof H2 as (S2 & M2 & _).
  destruct (Z_lt_le_dec 2 c) as [Hd|Hd].
  { rewrite (nav_eta n m A B (C1 ltac:(lia)) (C2 ltac:(lia)) (C3 ltac:(lia))). split; [reflexivity | right; apply same_refl]. }
  destruct (Z.eq_dec c (-1)) as [->|N1]; [|destruct (Z.eq_dec c 0) as [->|N2]; [|destruct (Z.eq_dec c 1) as [->|N3]; [|assert (c = 2) by lia; subst c]]].
  - rewrite (child_at_m1 n ws1 ws2 HC f K), (child_at_m1 m ws1 ws2 HC' f K'), B.
    apply same_run_ctx with (-1) 0; [exact S | exact (cu_c _ _ _ _ K) | apply znth_upd_same; apply (znth_range _ _ _ (cu_c _ _ _ _ K)) | lia].
  - destruct ws1 as [|w0 ws1'] eqn:EW.
    + rewrite (child_at_0_none n [] ws2 HC f K eq_refl), (child_at_0_none m [] ws2 HC' f K' eq_refl). split; [reflexivity | right; exact S].
    + rewrite <- EW in *. destruct (Z_lt_le_dec 1 (zlen (n_ctx n))) as [Rm|Rm].
      * assert (0 < zlen ws1) by (rewrite EW, zlen_cons; pose proof (zlen_nonneg ws1'); lia).
        destruct (proj2 (znth_some_iff ws1 (if f then 0 else zlen ws1 - 1)) ltac:(destruct f; lia)) as [w Hw].
        rewrite (child_at_0 n ws1 ws2 HC f w K Hw Rm), (child_at_0 m ws1 ws2 HC' f w K' Hw) by (rewrite B; exact Rm).
        apply same_run_loc; [exact A | exact B | repeat split; intros; lia | navsimp; lia].
      * apply same_run_panic with PnContext; [rewrite (child_at_0_short n ws1 ws2 f HC K) by (try (rewrite EW; discriminate); lia); reflexivity|].
        rewrite (child_at_0_short m ws1 ws2 f HC' K') by (try (rewrite EW; discriminate); rewrite B; lia). reflexivity.
  - destruct (proj2 (znth_some_iff ws1 (n_l1i n)) (cu_1 _ _ _ _ K ltac:(lia))) as [w Hw].
    assert (Hw' : znth ws1 (n_l1i m) = Some w) by (rewrite C1 by lia; exact Hw).
    destruct (Z.eq_dec (entry_child w) (-1)) as [EL|EL].
    + rewrite (child_at_1_leaf n ws1 ws2 HC f w K Hw EL), (child_at_1_leaf m ws1 ws2 HC' f w K' Hw' EL).
      split; [reflexivity|]. right. cbn [fst]. split; [exact A|]. split; [exact B|]. intros x Hx. navsimp.
      cbn [w_l2lo n_ctx] in Hx. rewrite (cu_c _ _ _ _ K) in Hx. injection Hx as <-. repeat split; try lia. intros; apply C1; lia.
    + destruct (Z_lt_le_dec 2 (zlen (n_ctx n))) as [Rm|Rm].
      * destruct (upperBound_range _ _ _ _ _ H1 (co_links _ _ _ HC) M2 Hw EL) as (up & UB & CR & B1 & B2).
        destruct (proj2 (znth_some_iff ws2 (if f then entry_child w else up)) ltac:(destruct f; lia)) as [v Hv].
        rewrite (child_at_1 n ws1 ws2 HC f w up K Hw EL UB Rm v Hv).
        rewrite (child_at_1 m ws1 ws2 HC' f w up K' Hw' EL) with (v := v); [|rewrite (base_l1 _ _ A), C1 by lia; exact UB | rewrite B; exact Rm | exact Hv].
        apply same_run_loc; [exact A | exact B | | navsimp; lia]. repeat split; navsimp; intros; [apply C1; lia | lia].
      * apply same_run_panic with PnContext; [rewrite (child_at_1_short n ws1 ws2 f w HC K Hw EL) by lia; reflexivity|].
        rewrite (child_at_1_short m ws1 ws2 f w HC' K' Hw' EL) by (rewrite B; lia). reflexivity.
  - pose proof (cu_2 _ _ _ _ K ltac:(lia)) as (Q1 & Q2). destruct (proj2 (znth_some_iff ws2 (n_l2i n)) ltac:(lia)) as [w Hw].
    specialize (C2 ltac:(lia)). pose proof C2 as C2'. unfold pos2 in C2'. injection C2' as D1 D2 D3.
    assert (Hw' : znth ws2 (n_l2i m) = Some w) by (rewrite D1; exact Hw).
    destruct (Z.eq_dec (entry_child w) (-1)) as [EL|EL].
    + rewrite (child_at_2_leaf n ws1 ws2 HC f w K Hw EL), (child_at_2_leaf m ws1 ws2 HC' f w K' Hw' EL).
      split; [reflexivity|]. right. cbn [fst]. split; [exact A|]. split; [exact B|]. intros x Hx. navsimp.
      cbn [w_l3lo n_ctx] in Hx. rewrite (cu_c _ _ _ _ K) in Hx. injection Hx as <-. repeat split; try lia; intros; [apply C1; lia | exact C2].
    + destruct (Z_lt_le_dec 3 (zlen (n_ctx n))) as [Rm|Rm].
      * destruct (child_at_2 n ws1 ws2 HC f w K Hw EL Rm) as (up & UB & ->).
        destruct (child_at_2 m ws1 ws2 HC' f w K' Hw' EL) as (up' & UB' & ->); [rewrite B; exact Rm|].
        rewrite (base_l2 _ _ A), (base_l3 _ _ A), D1, UB in UB'. injection UB' as <-.
        apply same_run_loc; [exact A | exact B | | navsimp; lia]. repeat split; navsimp; intros; [apply C1; lia | exact C2].
      * apply same_run_panic with PnContext; [rewrite (child_at_2_short n ws1 ws2 f w HC K Hw EL) by lia; reflexivity|].
        rewrite (child_at_2_short m ws1 ws2 f w HC' K' Hw' EL) by (rewrite B; lia). reflexivity.
Qed.
Lemma sibling_sim n m ws1 ws2 nx : same_place n m -> cur_ok n ws1 ws2 -> same_run (toSiblingElement n nx) (toSiblingElement m nx).
Proof.
  intros S (HC & c & K). destruct (same_ok _ _ _ _ _ S HC K) as [HC' K']. pose proof S as (A & B & C).
  specialize (C c (cu_c _ _ _ _ K)). pose proof C as (C1 & C2 & C3). pose proof (cu_lo _ _ _ _ K) as R.
  destruct (Z_lt_le_dec 2 c) as [Hd|Hd].
  { rewrite (nav_eta n m A B (C1 ltac:(lia)) (C2 ltac:(lia)) (C3 ltac:(lia))). split; [reflexivity | right; apply same_refl]. }
  destruct (Z_lt_le_dec 0 c) as [Hp|Hp].
  2:{ rewrite (sibling_at_low n ws1 ws2 HC nx c K Hp), (sibling_at_low m ws1 ws2 HC' nx c K' Hp). split; [reflexivity | right; exact S]. }
  specialize (C1 ltac:(lia)).
  destruct (proj2 (znth_some_iff ws1 (n_l1i n)) (cu_1 _ _ _ _ K ltac:(lia))) as [w1 Hw1].
  assert (Hw1' : znth ws1 (n_l1i m) = Some w1) by (rewrite C1; exact Hw1).
  destruct (Z.eq_dec c 1) as [->|N1]; [|assert (c = 2) by lia; subst c].
  - rewrite (sibling_at_1 n ws1 ws2 HC nx K), (sibling_at_1 m ws1 ws2 HC' nx K'), C1.
    destruct (znth ws1 (stepBy nx (n_l1i n))) as [w|] eqn:E; [|split; [reflexivity | right; exact S]].
    split; [reflexivity|]. right. cbn [fst]. split; [exact A|]. split; [navsimp; rewrite B; reflexivity|].
    intros x Hx. cbn [w_ctx w_l1i n_ctx] in Hx. rewrite znth_upd_other in Hx by lia. rewrite (cu_c _ _ _ _ K) in Hx. injection Hx as <-.
    repeat split; lia.
  - specialize (C2 ltac:(lia)). pose proof C2 as C2'. unfold pos2 in C2'. injection C2' as D1 D2 D3.
    rewrite (sibling_at_2 n ws1 ws2 HC nx w1 K Hw1), (sibling_at_2 m ws1 ws2 HC' nx w1 K' Hw1'), D1, D2, D3.
    destruct (if nx then _ else _) eqn:E; [split; [reflexivity | right; exact S]|].
    split; [reflexivity|]. right. cbn [fst]. split; [exact A|]. split; [navsimp; rewrite B; reflexivity|].
    intros x Hx. cbn [w_ctx w_l2i n_ctx] in Hx. rewrite znth_upd_other in Hx by lia. rewrite (cu_c _ _ _ _ K) in Hx. injection Hx as <-.
    repeat split; try lia; intros; [exact C1|]. unfold pos2. navsimp. congruence.
Qed.
Lemma toElement_sim n m ws1 ws2 dir : same_place n m -> cur_ok n ws1 ws2 -> same_run (toElement n dir) (toElement m dir).
Proof.
  intros S OK. pose proof OK as (HC & c & K). destruct (same_ok _ _ _ _ _ S HC K) as [HC' K']. pose proof S as (A & B & C).
  pose proof (cu_lo _ _ _ _ K) as R. pose proof (znth_range _ _ _ (cu_c _ _ _ _ K)) as R0.
  unfold toElement. destruct (dir =? DirRoot).
  { destruct (Z.eq_dec c 0) as [->|N].
    - destruct (root_exact n ws1 ws2 0 HC K) as [->|(_ & ->)]; destruct (root_exact m ws1 ws2 0 HC' K') as [->|(_ & ->)].
      + rewrite B. apply same_run_ctx with 0 0; [exact S | exact (cu_c _ _ _ _ K) | apply znth_upd_same; lia | lia].
      + split; [reflexivity|]. right. cbn [fst]. destruct S as (_ & _ & C'). split; [exact A|]. split.
        * navsimp. rewrite B. clear - K R0. pose proof (cu_c _ _ _ _ K) as Z. destruct (n_ctx n); [discriminate|]. rewrite znth_cons0 in Z. cbn. congruence.
        * intros x Hx. cbn [w_ctx n_ctx] in Hx. rewrite znth_upd_same in Hx by lia. injection Hx as <-. repeat split; lia.
      + split; [reflexivity|]. right. cbn [fst]. split; [exact A|]. split.
        * navsimp. rewrite B. clear - K R0. pose proof (cu_c _ _ _ _ K) as Z. destruct (n_ctx n); [discriminate|]. rewrite znth_cons0 in Z. cbn. congruence.
        * intros x Hx. rewrite (cu_c _ _ _ _ K) in Hx. injection Hx as <-. repeat split; lia.
      + split; [reflexivity | right; exact S].
    - destruct (root_exact n ws1 ws2 c HC K) as [->|(E & _)]; [|lia]. destruct (root_exact m ws1 ws2 c HC' K') as [->|(E & _)]; [|lia].
      rewrite B. apply same_run_ctx with c 0; [exact S | exact (cu_c _ _ _ _ K) | apply znth_upd_same; lia | lia]. }
  destruct (dir =? DirParent).
  { rewrite (parent_exact n ws1 ws2 c HC K), (parent_exact m ws1 ws2 c HC' K'), B. destruct (0 <? c) eqn:E.
    - apply same_run_ctx with c (c - 1); [exact S | exact (cu_c _ _ _ _ K) | apply znth_upd_same; rewrite zlen_upd; lia | lia].
    - destruct (c =? 0) eqn:E0; [|split; [reflexivity | right; exact S]].
      apply same_run_ctx with c (-1); [exact S | exact (cu_c _ _ _ _ K) | apply znth_upd_same; lia | lia]. }
  dif1; [apply child_sim with ws1 ws2; assumption|]. dif1; [apply sibling_sim with ws1 ws2; assumption|].
  split; [reflexivity | right; exact S].
Qed.

(** ** Sequences of moves: results (and positions), up to the first panic *)
Fixpoint run (n : nav) (dirs : list Z) : list (out bool * out Z) :=
  match dirs with
  | [] => []
  | d :: t => let (n', r) := toElement n d in
              (r, match r with Panic w => Panic w | _ => getCurrentIndex n' end) ::
              match r with Panic _ => [] | _ => run n' t end
  end.
Lemma run_same ws1 ws2 dirs : forall n m, same_place n m -> cur_ok n ws1 ws2 -> run n dirs = run m dirs.
Proof.
  induction dirs as [|d t IH]; intros n m S OK; [reflexivity|]. cbn [run].
  pose proof (toElement_sim n m ws1 ws2 d S OK) as [E P]. pose proof (toElement_good n ws1 ws2 d OK) as G.
  destruct (toElement n d) as [n' r], (toElement m d) as [m' s]. cbn [fst snd] in *. subst s.
  destruct P as [[w Pw]|P]; [cbn [snd] in Pw; subst r; reflexivity|].
  rewrite (same_current _ _ P). destruct G as [[w Pw]|[(N & S' & OK')|(T & OK')]]; cbn [fst snd] in *.
  - subst r. reflexivity.
  - rewrite (IH n' m' P OK'). reflexivity.
  - rewrite (IH n' m' P OK'). reflexivity.
Qed.
