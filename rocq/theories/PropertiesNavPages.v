(** Moves below the cached levels over a token buffer of any size. *)
From Verif Require Import Lib SpecBuffer Buffer ParserPrim BufferProofs SpecToken SpecNav Nav TokenProofs NavMoveProofs PropertiesNav.

(** The end of the element at token [cur], of depth [d], lies in the first [P]
    words: they are all there is, or a further element opens outside it. *)
Definition end_seen (P : Z) (ws : list Z) (cur d : Z) : Prop :=
  zlen ws <= P \/ exists j e, cur < j < P /\ opens ws j e /\ e <= d.

(** The first [P] words can be read; the other ones give an error. *)
Definition sees (b : longbuf) (P : Z) (ws : list Z) : Prop :=
  b_size b = zlen ws /\ zlen ws < 2^31 /\ 0 < P /\
  (forall i w, znth ws i = Some w -> i < P -> longAt b i = Ok w) /\
  (forall i, P <= i < zlen ws -> exists e, longAt b i = Err e).
Lemma sees_history opts b0 ops ws : newLongBuf opts = Ok b0 -> last opts 10 <> 63 -> replay (2 ^ last opts 10) ops ws -> zlen ws < 2^31 ->
  sees (runOps b0 ops) (2 ^ last opts 10) ws.
Proof.
  intros E N H L. pose proof (new_long_repr _ _ E N) as R0. set (e := last opts 10) in *.
  destruct (runOps_replay e b0 ops R0) as (ys & R' & H'). rewrite <- (replay_det _ _ _ H _ H') in R'. clear ys H'.
  pose proof (pow2_pos e ltac:(destruct R'; lia)) as HP.
  split; [exact (rp_size _ _ _ R')|]. split; [exact L|]. split; [exact HP|]. split.
  - intros i w Hw Hi. unfold longAt. apply (proj2 (bat_read _ e _ _ _ _ R')). split; [apply znth_value_at; exact Hw | exact Hi].
  - intros i Hi. unfold longAt. rewrite (bat_repr _ e _ ws i R').
    destruct ((0 <=? i) && (i <? Z.min (zlen ws) (2^e))) eqn:E1; [lia|].
    assert (X : (pages_for (zlen ws) (2^e) <=? i / 2^e) = false).
    { apply Z.leb_gt. unfold pages_for. apply Z.div_lt_upper_bound; [lia|].
      pose proof (Z.mul_succ_div_gt (zlen ws + 2^e - 1) (2^e) ltac:(lia)). nia. }
    rewrite X, andb_false_r. cbn [andb]. match goal with |- context [if ?c then _ else _] => destruct c end; eexists; reflexivity.
Qed.
Definition page (P : Z) (ws : list Z) : list Z := firstn (Z.to_nat P) ws.
Lemma page_length P ws : 0 < P -> zlen (page P ws) = Z.min P (zlen ws).
Proof. intros H. unfold page, zlen. rewrite firstn_length. lia. Qed.
Lemma page_nth P ws i : 0 < P -> znth (page P ws) i = if i <? P then znth ws i else None.
Proof.
  intros HP. unfold page. destruct (Z_lt_le_dec i 0) as [L|L]; [rewrite !znth_neg by lia; destruct (_ <? _); reflexivity|].
  rewrite !znth_nth by lia. destruct (Z.ltb_spec i P) as [H|H].
  - rewrite <- (firstn_skipn (Z.to_nat P) ws) at 2. destruct (Z_lt_le_dec i (zlen ws)) as [M|M].
    + rewrite nth_error_app1; [reflexivity|]. rewrite firstn_length. unfold zlen in M. lia.
    + rewrite (firstn_skipn (Z.to_nat P) ws). transitivity (@None Z); [|symmetry]; apply nth_error_None; rewrite ?firstn_length; unfold zlen in M; lia.
  - apply nth_error_None. rewrite firstn_length. lia.
Qed.
Lemma page_opens P ws i d : 0 < P -> (opens (page P ws) i d <-> opens ws i d /\ i < P).
Proof.
  intros HP. rewrite !opens_iff. split.
  - intros (w & H & R). rewrite page_nth in H by exact HP. destruct (Z.ltb_spec i P); [|discriminate H]. split; [exists w; auto | assumption].
  - intros ((w & H & R) & L). exists w. rewrite page_nth by exact HP. destruct (Z.ltb_spec i P); [auto | lia].
Qed.
Lemma sees_readable b P ws : sees b P ws -> readable b (page P ws).
Proof.
  intros (_ & L & HP & H & _). split; [rewrite page_length by exact HP; lia|]. intros i w E. rewrite page_nth in E by exact HP.
  destruct (Z.ltb_spec i P); [exact (H i w E ltac:(assumption)) | discriminate E].
Qed.
Lemma type_err n i e : longAt (n_vtd n) i = Err e -> getTokenType n i = Err e.
Proof. intros H. unfold getTokenType. rewrite H. reflexivity. Qed.

(** ** First child *)
Lemma first_cut n P ws d : sees (n_vtd n) P ws -> forall k idx, 0 <= idx -> k = Z.to_nat (zlen ws - idx) ->
  firstChildLoop k n d idx = firstChildLoop (Z.to_nat (zlen (page P ws) - idx)) n d idx.
Proof.
  intros (Hs & HL & HP & Ho & He). pose proof (page_length P ws HP) as PL. induction k as [|k IH]; intros idx Hi Hk.
  - replace (Z.to_nat (zlen (page P ws) - idx)) with O by lia. reflexivity.
  - destruct (Z_lt_le_dec idx P) as [L|L].
    + replace (Z.to_nat (zlen (page P ws) - idx)) with (S (Z.to_nat (zlen (page P ws) - (idx + 1)))) by lia. cbn [firstChildLoop]. rewrite (IH (idx + 1)) by lia. reflexivity.
    + replace (Z.to_nat (zlen (page P ws) - idx)) with O by lia. cbn [firstChildLoop]. destruct (He idx ltac:(lia)) as (e & E). rewrite (type_err _ _ _ E). reflexivity.
Qed.
Lemma page_first P ws cur d i : 0 < P -> (first_child (page P ws) cur d i <-> first_child ws cur d i /\ i < P).
Proof.
  intros HP. split.
  - intros (A & B & C). apply page_opens in B; [|exact HP]. destruct B as (B & L). split; [|exact L]. split; [exact A|]. split; [exact B|].
    intros j e Hj Hoj. apply (C j e Hj), page_opens; [exact HP|]. split; [exact Hoj | lia].
  - intros ((A & B & C) & L). split; [exact A|]. split; [apply page_opens; auto|]. intros j e Hj Hoj. apply page_opens in Hoj; [|exact HP]. apply (C j e Hj), Hoj.
Qed.
Lemma first_unique ws cur d i j : first_child ws cur d i -> first_child ws cur d j -> i = j.
Proof.
  intros (A1 & A2 & A3) (B1 & B2 & B3). destruct (Z.lt_total i j) as [L|[L|L]]; [|exact L|].
  - specialize (B3 i _ ltac:(lia) A2). lia.
  - specialize (A3 j _ ltac:(lia) B2). lia.
Qed.
Section Move.
Variables (n : nav) (opts : list Z) (b0 : longbuf) (ops : list (upd_op Z)) (ws : list Z) (d cur : Z).
Hypothesis Hn : newLongBuf opts = Ok b0.
Hypothesis H63 : last opts 10 <> 63.
Hypothesis Hr : replay (2 ^ last opts 10) ops ws.
Hypothesis Hb : n_vtd n = runOps b0 ops.
Hypothesis Hl : zlen ws < 2^31.
Hypothesis HT : n_term n = false.
Hypothesis H0 : ctxAt n 0 = Ok d.
Hypothesis Hcur : ctxAt n d = Ok cur.
Notation P := (2 ^ last opts 10).
Let S : sees (n_vtd n) P ws.
Proof. rewrite Hb. apply sees_history; assumption. Qed.

Lemma first_child_pages : 3 <= d -> d + 1 < zlen (n_ctx n) -> 0 <= cur < 2^31 - 1 ->
  (forall i, first_child ws cur d i -> i < P -> exists n', toElement n DirFirstChild = (n', Ok true) /\
     getCurrentIndex n' = Ok i /\ ctxAt n' 0 = Ok (d + 1) /\ forall j, 1 <= j <= d -> ctxAt n' j = ctxAt n j) /\
  ((forall i, first_child ws cur d i -> P <= i) -> toElement n DirFirstChild = (n, Ok false)).
Proof.
  intros Hd Hc Hcr. pose proof S as (Hs & _ & HP & _). unfold toElement.
  change (DirFirstChild =? DirRoot) with false. change (DirFirstChild =? DirParent) with false.
  change ((DirFirstChild =? DirFirstChild) || (DirFirstChild =? DirLastChild)) with true. cbn iota.
  change (DirFirstChild =? DirFirstChild) with true. unfold toChildElement. rewrite HT, H0. cbn [mtry].
  destruct (d =? -1) eqn:E0; [lia|]. destruct (d =? 0) eqn:E1; [lia|]. destruct (d =? 1) eqn:E2; [lia|]. destruct (d =? 2) eqn:E3; [lia|].
  unfold toFirstChild. rewrite H0. cbn [mtry]. rewrite Hcur. cbn [mtry]. rewrite wrap32_id by lia. rewrite Hs.
  rewrite (first_cut n P ws d S _ (cur + 1)) by (lia || reflexivity).
  destruct (firstChildLoop_spec n (page P ws) d (sees_readable _ _ _ S) ltac:(lia) Hc _ (cur + 1) ltac:(lia) eq_refl) as [(i & A1 & A2 & A3 & A4)|(A1 & A2)].
  - assert (F : first_child (page P ws) cur d i) by (split; [lia|]; split; [exact A2|]; intros j e Hj; apply A3; lia).
    apply page_first in F; [|exact HP]. destruct F as (F & L). split.
    + intros i' F' L'. rewrite (first_unique _ _ _ _ _ F' F). eexists. split; [exact A4|].
      destruct (placed_spec n (d + 1) i HT ltac:(lia)) as (B1 & B2 & B3). split; [exact B1|]. split; [exact B2|]. intros j Hj. apply B3; lia.
    + intros X. specialize (X i F). lia.
  - split; [|intros _; exact A2]. intros i F L. assert (F' : first_child (page P ws) cur d i) by (apply page_first; auto).
    destruct F' as (F1 & F2 & F3). destruct (A1 i ltac:(lia) F2) as (j & e & Hj & Ho & He). specialize (F3 j e ltac:(lia) Ho). lia.
Qed.

(** ** Last child *)
Notation end_seen := (end_seen P ws cur d).
Lemma last_cut : forall k idx last, cur < idx -> 0 <= cur -> k = Z.to_nat (zlen ws - idx) ->
  (forall j e, cur < j < idx -> opens ws j e -> d < e) ->
  (zlen ws <= P \/ exists j e, cur < j < P /\ opens ws j e /\ e <= d) ->
  lastChildLoop k n d idx last = lastChildLoop (Z.to_nat (zlen (page P ws) - idx)) n d idx last.
Proof.
  pose proof S as (Hs & _ & HP & Ho & He). pose proof (page_length P ws HP) as PL. induction k as [|k IH]; intros idx last Hi Hc Hk Hbig Hend.
  - replace (Z.to_nat (zlen (page P ws) - idx)) with O by lia. reflexivity.
  - destruct (Z_lt_le_dec idx P) as [L|L].
    + replace (Z.to_nat (zlen (page P ws) - idx)) with (Datatypes.S (Z.to_nat (zlen (page P ws) - (idx + 1)))) by lia.
      destruct (proj2 (znth_some_iff ws idx) ltac:(lia)) as [w Hw]. pose proof (sees_readable _ _ _ S) as RD.
      assert (Hw' : znth (page P ws) idx = Some w) by (rewrite page_nth by exact HP; destruct (Z.ltb_spec idx P); [exact Hw | lia]).
      cbn [lastChildLoop]. rewrite (view_type _ _ _ _ RD Hw'), (view_depth _ _ _ _ RD Hw'). cbn [obind]. change TokStartingTag with 0.
      destruct (field_type w =? 0) eqn:Et.
      * destruct (tdepth w <=? d) eqn:E1; [reflexivity|].
        assert (G : forall j e, cur < j < idx + 1 -> opens ws j e -> d < e).
        { intros j e Hj Hoj. destruct (Z.eq_dec j idx) as [->|]; [|apply (Hbig j e); [lia | exact Hoj]]. apply opens_iff in Hoj. destruct Hoj as (w2 & Hw2 & _ & ->). assert (w2 = w) by congruence. subst. lia. }
        destruct (tdepth w =? d + 1); apply IH; try assumption; lia.
      * apply IH; try assumption; try lia.
        intros j e Hj Hoj. destruct (Z.eq_dec j idx) as [->|]; [|apply (Hbig j e); [lia | exact Hoj]]. apply opens_iff in Hoj. destruct Hoj as (w2 & Hw2 & T2 & _). assert (w2 = w) by congruence. subst. lia.
    + exfalso. destruct Hend as [Hend|(j & e & Hj & Hoj & Hje)]; [lia|]. specialize (Hbig j e ltac:(lia) Hoj). lia.
Qed.
Lemma last_blind : ~ end_seen -> forall k idx last, cur < idx -> 0 <= cur -> k = Z.to_nat (zlen ws - idx) -> idx < zlen ws -> lastChildLoop k n d idx last = Ok None.
Proof.
  intros NE. pose proof S as (Hs & _ & HP & Ho & He). induction k as [|k IH]; intros idx last Hi Hc Hk Hx; [lia|].
  assert (LP : P < zlen ws) by (destruct (Z_lt_le_dec P (zlen ws)); [assumption | elim NE; left; lia]).
  destruct (Z_lt_le_dec idx P) as [L|L].
  - destruct (proj2 (znth_some_iff ws idx) ltac:(lia)) as [w Hw]. pose proof (sees_readable _ _ _ S) as RD.
    assert (Hw' : znth (page P ws) idx = Some w) by (rewrite page_nth by exact HP; destruct (Z.ltb_spec idx P); [exact Hw | lia]).
    cbn [lastChildLoop]. rewrite (view_type _ _ _ _ RD Hw'), (view_depth _ _ _ _ RD Hw'). cbn [obind]. change TokStartingTag with 0.
    destruct (field_type w =? 0) eqn:Et; [|apply IH; lia].
    destruct (tdepth w <=? d) eqn:E1; [|destruct (tdepth w =? d + 1); apply IH; lia].
    exfalso. apply NE. right. exists idx, (tdepth w). split; [lia|]. split; [|lia]. apply opens_iff. exists w. repeat split; [exact Hw | lia].
  - cbn [lastChildLoop]. destruct (He idx ltac:(lia)) as (e & E). rewrite (type_err _ _ _ E). reflexivity.
Qed.
Lemma page_child i : end_seen -> (is_child (page P ws) cur d i <-> is_child ws cur d i).
Proof.
  intros ES. pose proof S as (_ & _ & HP & _). split.
  - intros (A & B & C). apply page_opens in B; [|exact HP]. destruct B as (B & L). split; [exact A|]. split; [exact B|].
    intros j e Hj Hoj. apply (C j e Hj), page_opens; [exact HP|]. split; [exact Hoj | lia].
  - intros (A & B & C). assert (L : i < P).
    { destruct ES as [ES|(j & e & Hj & Hoj & Hje)]; [apply opens_range in B; lia|]. destruct (Z_lt_le_dec i P) as [L|L]; [exact L|]. specialize (C j e ltac:(lia) Hoj). lia. }
    split; [exact A|]. split; [apply page_opens; auto|]. intros j e Hj Hoj. apply page_opens in Hoj; [|exact HP]. apply (C j e Hj), Hoj.
Qed.
Lemma last_child_pages : 3 <= d -> d + 1 < zlen (n_ctx n) -> 0 <= cur < 2^31 - 1 ->
  (end_seen -> forall i, last_child ws cur d i -> exists n', toElement n DirLastChild = (n', Ok true) /\
     getCurrentIndex n' = Ok i /\ ctxAt n' 0 = Ok (d + 1) /\ forall j, 1 <= j <= d -> ctxAt n' j = ctxAt n j) /\
  (~ end_seen \/ (forall i, ~ is_child ws cur d i) -> toElement n DirLastChild = (n, Ok false)).
Proof.
  intros Hd Hc Hcr. pose proof S as (Hs & _ & HP & _). unfold toElement.
  change (DirLastChild =? DirRoot) with false. change (DirLastChild =? DirParent) with false.
  change ((DirLastChild =? DirFirstChild) || (DirLastChild =? DirLastChild)) with true. cbn iota.
  change (DirLastChild =? DirFirstChild) with false. unfold toChildElement. rewrite HT, H0. cbn [mtry].
  destruct (d =? -1) eqn:E0; [lia|]. destruct (d =? 0) eqn:E1; [lia|]. destruct (d =? 1) eqn:E2; [lia|]. destruct (d =? 2) eqn:E3; [lia|].
  unfold toLastChild. rewrite H0. cbn [mtry]. rewrite Hcur. cbn [mtry]. rewrite wrap32_id by lia. rewrite Hs.
  assert (Seen : end_seen -> exists r, lastChildLoop (Z.to_nat (zlen ws - (cur + 1))) n d (cur + 1) (-1) = Ok (Some r) /\ ((r = -1 /\ forall i, ~ is_child ws cur d i) \/ (0 <= r /\ last_child ws cur d r))).
  { intros ES. rewrite (last_cut _ (cur + 1) (-1)) by first [lia | reflexivity | exact ES | intros; lia].
    destruct (lastChildLoop_spec n (page P ws) d cur (sees_readable _ _ _ S) ltac:(lia) _ (cur + 1) (-1) ltac:(lia) eq_refl) as (r & E & HR).
    { intros; lia. } { left. split; [reflexivity | intros; lia]. }
    exists r. split; [exact E|]. destruct HR as [(-> & Hno)|(R0 & L1 & L2)]; [left | right].
    - split; [reflexivity|]. intros i Hi. apply (Hno i), page_child; assumption.
    - split; [exact R0|]. split; [apply page_child; assumption|]. intros j Hj. apply L2, page_child; assumption. }
  split.
  - intros ES i Hi. destruct (Seen ES) as (r & E & HR). rewrite E. cbn [mtry]. destruct HR as [(-> & Hno)|(R0 & L)]; [destruct (Hno i); apply Hi|].
    assert (r = i) as ->. { destruct Hi as (I1 & I2), L as (L1 & L2). specialize (I2 _ L1). specialize (L2 _ I1). lia. }
    destruct (i =? -1) eqn:Ei; [lia|]. destruct Hi as ((_ & Ho & _) & _). pose proof (opens_range _ _ _ Ho).
    eexists. split; [rewrite wrap32_id by lia; apply place_ok; lia|].
    destruct (placed_spec n (d + 1) i HT ltac:(lia)) as (B1 & B2 & B3). split; [exact B1|]. split; [exact B2|]. intros j Hj. apply B3; lia.
  - intros X. destruct (Z_lt_le_dec (cur + 1) (zlen ws)) as [L|L].
    2:{ replace (Z.to_nat (zlen ws - (cur + 1))) with O by lia. reflexivity. }
    destruct X as [X|X].
    + rewrite (last_blind X) by first [lia | reflexivity]. reflexivity.
    + assert (D : end_seen \/ ~ end_seen).
      { unfold PropertiesNavPages.end_seen. destruct (Z_lt_le_dec P (zlen ws)); [|left; left; lia].
        assert (Q : forall k : nat, (exists j e, cur < j < cur + 1 + Z.of_nat k /\ opens ws j e /\ e <= d) \/ ~ (exists j e, cur < j < cur + 1 + Z.of_nat k /\ opens ws j e /\ e <= d)).
        { induction k as [|k [IH|IH]]; [right; intros (j & e & Hj & _); lia | left; destruct IH as (j & e & Hj & R); exists j, e; split; [lia | exact R]|].
          destruct (znth ws (cur + 1 + Z.of_nat k)) as [w|] eqn:Ew.
          - destruct (Z.eq_dec (field_type w) 0) as [T|T]; [destruct (Z_lt_le_dec d (tdepth w)) as [B|B]|].
            + right. intros (j & e & Hj & Ho & He). apply IH. exists j, e. split; [|auto]. destruct (Z.eq_dec j (cur + 1 + Z.of_nat k)) as [->|]; [|lia]. apply opens_iff in Ho. destruct Ho as (w2 & W2 & _ & ->). assert (w2 = w) by congruence. subst. lia.
            + left. exists (cur + 1 + Z.of_nat k), (tdepth w). split; [lia|]. split; [|lia]. apply opens_iff. exists w. auto.
            + right. intros (j & e & Hj & Ho & He). apply IH. exists j, e. split; [|auto]. destruct (Z.eq_dec j (cur + 1 + Z.of_nat k)) as [->|]; [|lia]. apply opens_iff in Ho. destruct Ho as (w2 & W2 & T2 & _). assert (w2 = w) by congruence. subst. contradiction.
          - right. intros (j & e & Hj & Ho & He). apply IH. exists j, e. split; [|auto]. destruct (Z.eq_dec j (cur + 1 + Z.of_nat k)) as [->|]; [|lia]. apply opens_iff in Ho. destruct Ho as (w2 & W2 & _). congruence. }
        destruct (Q (Z.to_nat (P - (cur + 1)))) as [(j & e & Hj & R)|Q'].
        - left. right. exists j, e. split; [|exact R]. destruct (Z_lt_le_dec (P - (cur + 1)) 0); lia.
        - right. intros [A|(j & e & Hj & R)]; [lia|]. apply Q'. exists j, e. split; [lia | exact R]. }
      destruct D as [D|D]; [|rewrite (last_blind D) by first [lia | reflexivity]; reflexivity].
      destruct (Seen D) as (r & E & HR). rewrite E. cbn [mtry]. destruct HR as [(-> & Hno)|(R0 & L1 & L2)]; [reflexivity | destruct (X r L1)].
Qed.

(** ** Previous sibling *)
Lemma prev_sibling_pages : forall parent, 4 <= d < zlen (n_ctx n) -> ctxAt n (d - 1) = Ok parent -> 0 <= parent < cur -> cur <= zlen ws ->
  (cur <= P -> forall i, prev_sibling ws parent cur d i -> exists n', toElement n DirPrevSibling = (n', Ok true) /\
     getCurrentIndex n' = Ok i /\ ctxAt n' 0 = Ok d /\ forall j, j <> d -> ctxAt n' j = ctxAt n j) /\
  (P < cur \/ (forall i, ~ prev_sibling ws parent cur d i) -> toElement n DirPrevSibling = (n, Ok false)).
Proof.
  intros parent Hd Hpar Hrp Hw. pose proof S as (Hs & _ & HP & Ho & He). pose proof (page_length P ws HP) as PL. unfold toElement.
  change (DirPrevSibling =? DirRoot) with false. change (DirPrevSibling =? DirParent) with false.
  change ((DirPrevSibling =? DirFirstChild) || (DirPrevSibling =? DirLastChild)) with false.
  change ((DirPrevSibling =? DirNextSibling) || (DirPrevSibling =? DirPrevSibling)) with true. cbn iota.
  change (DirPrevSibling =? DirNextSibling) with false. unfold toSiblingElement. rewrite HT, H0. cbn [mtry].
  destruct ((d =? -1) || (d =? 0)) eqn:E0; [lia|]. destruct (d =? 1) eqn:E1; [lia|]. destruct (d =? 2) eqn:E2; [lia|]. destruct (d =? 3) eqn:E3; [lia|].
  unfold toPrevSibling. rewrite H0. cbn [mtry]. rewrite Hcur. cbn [mtry]. rewrite Hpar. cbn [mtry]. rewrite wrap32_id by lia.
  assert (PS : forall i, cur <= P -> (prev_sibling (page P ws) parent cur d i <-> prev_sibling ws parent cur d i)).
  { intros i LP. unfold prev_sibling. split; intros (A & B & C).
    - apply page_opens in B; [|exact HP]. split; [exact A|]. split; [apply B|]. intros j Hj Hoj. apply (C j Hj), page_opens; [exact HP|]. split; [exact Hoj | lia].
    - split; [exact A|]. split; [apply page_opens; [exact HP|]; split; [exact B | lia]|]. intros j Hj Hoj. apply page_opens in Hoj; [|exact HP]. apply (C j Hj), Hoj. }
  destruct (Z_lt_le_dec P cur) as [L|L].
  - split; [lia|]. intros _. destruct (Z.to_nat (cur - 1 - parent)) as [|k] eqn:Ek; [reflexivity|]. cbn [prevSiblingLoop].
    destruct (He (cur - 1) ltac:(lia)) as (e & E). rewrite (type_err _ _ _ E). reflexivity.
  - destruct (prevSiblingLoop_spec n (page P ws) d parent cur (sees_readable _ _ _ S) ltac:(lia) ltac:(lia) ltac:(lia) _ (cur - 1) ltac:(lia) eq_refl ltac:(intros; lia)) as [(i & Hi & Ei)|(Hno & En)].
    + apply PS in Hi; [|exact L]. split.
      * intros _ i' Hi'. assert (i' = i).
        { destruct Hi as (A1 & A2 & A3), Hi' as (B1 & B2 & B3). destruct (Z.lt_total i i') as [G|[G|G]]; [|lia|].
          - exfalso. apply (A3 i'); [lia | exact B2].
          - exfalso. apply (B3 i); [lia | exact A2]. }
        subst i'. eexists. split; [exact Ei|]. apply sibling_placed; [exact HT | lia | exact H0].
      * intros [X|X]; [lia | destruct (X i Hi)].
    + split; [intros _ i Hi; destruct (Hno i); apply PS; assumption | intros _; exact En].
Qed.
End Move.

(** ** C108: with pages of [P] words, whatever was appended and modified.
    to_element.go (ToElement below depth 3). *)
Theorem C108_first_child : forall n opts b0 ops ws d cur, let P := 2 ^ last opts 10 in
  newLongBuf opts = Ok b0 -> last opts 10 <> 63 -> n_vtd n = runOps b0 ops -> replay P ops ws -> zlen ws < 2^31 ->
  n_term n = false -> ctxAt n 0 = Ok d -> ctxAt n d = Ok cur -> 3 <= d -> d + 1 < zlen (n_ctx n) -> 0 <= cur < 2^31 - 1 ->
  (forall i, first_child ws cur d i -> i < P -> exists n', toElement n DirFirstChild = (n', Ok true) /\
     getCurrentIndex n' = Ok i /\ ctxAt n' 0 = Ok (d + 1) /\ forall j, 1 <= j <= d -> ctxAt n' j = ctxAt n j) /\
  ((forall i, first_child ws cur d i -> P <= i) -> toElement n DirFirstChild = (n, Ok false)).
Proof. intros. eapply first_child_pages; eassumption. Qed.
Print Assumptions C108_first_child.

Theorem C108_last_child : forall n opts b0 ops ws d cur, let P := 2 ^ last opts 10 in
  newLongBuf opts = Ok b0 -> last opts 10 <> 63 -> n_vtd n = runOps b0 ops -> replay P ops ws -> zlen ws < 2^31 ->
  n_term n = false -> ctxAt n 0 = Ok d -> ctxAt n d = Ok cur -> 3 <= d -> d + 1 < zlen (n_ctx n) -> 0 <= cur < 2^31 - 1 ->
  (end_seen P ws cur d -> forall i, last_child ws cur d i -> exists n', toElement n DirLastChild = (n', Ok true) /\
     getCurrentIndex n' = Ok i /\ ctxAt n' 0 = Ok (d + 1) /\ forall j, 1 <= j <= d -> ctxAt n' j = ctxAt n j) /\
  (~ end_seen P ws cur d \/ (forall i, ~ is_child ws cur d i) -> toElement n DirLastChild = (n, Ok false)).
Proof. intros. eapply last_child_pages; eassumption. Qed.
Print Assumptions C108_last_child.

Theorem C108_prev_sibling : forall n opts b0 ops ws d cur parent, let P := 2 ^ last opts 10 in
  newLongBuf opts = Ok b0 -> last opts 10 <> 63 -> n_vtd n = runOps b0 ops -> replay P ops ws -> zlen ws < 2^31 ->
  n_term n = false -> ctxAt n 0 = Ok d -> ctxAt n d = Ok cur -> ctxAt n (d - 1) = Ok parent -> 4 <= d < zlen (n_ctx n) ->
  0 <= parent < cur -> cur <= zlen ws ->
  (cur <= P -> forall i, prev_sibling ws parent cur d i -> exists n', toElement n DirPrevSibling = (n', Ok true) /\
     getCurrentIndex n' = Ok i /\ ctxAt n' 0 = Ok d /\ forall j, j <> d -> ctxAt n' j = ctxAt n j) /\
  (P < cur \/ (forall i, ~ prev_sibling ws parent cur d i) -> toElement n DirPrevSibling = (n, Ok false)).
Proof. intros. eapply prev_sibling_pages; eassumption. Qed.
Print Assumptions C108_prev_sibling.

(** Ten tokens in pages of eight words: the element at token 3 has the children
    4 and 6, the one at token 7 has the children 8 and 9. *)
Definition C108_tokens : list Z := starts [0; 1; 2; 3; 4; 5; 4; 3; 4; 4].
Definition C108_buf : longbuf := match newLongBuf [3] with Ok b => b | _ => opt_buf 3 end.
Definition C108_nav (ctx : list Z) : nav :=
  litNav ctx 0 0 [] (runOps C108_buf (map OpAppend C108_tokens)) (lbuf 10 []) (lbuf 10 []) (lbuf 10 []) 0 0 0 0 0 0 0.
Example C108_hypotheses : newLongBuf [3] = Ok C108_buf /\ replay (2 ^ last [3] 10) (map OpAppend C108_tokens) C108_tokens /\
  first_child C108_tokens 3 3 4 /\ first_child C108_tokens 7 3 8 /\ end_seen 8 C108_tokens 3 3 /\ last_child C108_tokens 3 3 6 /\
  ~ end_seen 8 C108_tokens 7 3 /\ prev_sibling C108_tokens 3 6 4 4 /\ prev_sibling C108_tokens 7 9 4 8.
Proof.
  assert (O : forall i d, opens C108_tokens i d <-> znth [0; 1; 2; 3; 4; 5; 4; 3; 4; 4] i = Some d).
  { intros i d. rewrite opens_iff. unfold C108_tokens, starts. destruct (Z_lt_le_dec i 0) as [L|L]; [rewrite !znth_neg by lia; split; [intros (w & W & _)|]; discriminate|].
    rewrite !znth_nth by lia. rewrite nth_error_map.
    destruct (Z.to_nat i) as [|[|[|[|[|[|[|[|[|[|k]]]]]]]]]]; cbn [nth_error option_map];
      try (split; [intros (w & [= <-] & _ & ->); reflexivity | intros [= <-]; eexists; repeat split]).
    destruct k; cbn; split; [intros (w & W & _)| |intros (w & W & _)|]; discriminate. }
  assert (B : forall i d, znth [0; 1; 2; 3; 4; 5; 4; 3; 4; 4] i = Some d ->
    (i = 0 /\ d = 0) \/ (i = 1 /\ d = 1) \/ (i = 2 /\ d = 2) \/ (i = 3 /\ d = 3) \/ (i = 4 /\ d = 4) \/ (i = 5 /\ d = 5) \/ (i = 6 /\ d = 4) \/ (i = 7 /\ d = 3) \/ (i = 8 /\ d = 4) \/ (i = 9 /\ d = 4)).
  { intros i d H. pose proof (znth_range _ _ _ H) as R. change (zlen _) with 10 in R. rewrite znth_nth in H by lia.
    assert (C : i = 0 \/ i = 1 \/ i = 2 \/ i = 3 \/ i = 4 \/ i = 5 \/ i = 6 \/ i = 7 \/ i = 8 \/ i = 9) by lia.
    repeat (destruct C as [->|C]; [cbn in H; injection H as <-; lia|]). subst i. cbn in H. injection H as <-. lia. }
  split; [vm_compute; reflexivity|]. split.
  { generalize C108_tokens. intros l. induction l as [|v l IH] using rev_ind; [constructor|]. rewrite map_app. constructor. exact IH. }
  split; [split; [lia|]; split; [apply O; reflexivity|]; intros j e Hj H; apply O, B in H; lia|].
  split; [split; [lia|]; split; [apply O; reflexivity|]; intros j e Hj H; apply O, B in H; lia|].
  split; [right; exists 7, 3; split; [lia|]; split; [apply O; reflexivity | lia]|].
  split. { split; [split; [lia|]; split; [apply O; reflexivity|]; intros j e Hj H; apply O, B in H; lia|].
    intros j (J1 & J2 & J3). apply O, B in J2. destruct (Z_lt_le_dec 7 j) as [L|L]; [|lia].
    specialize (J3 7 3 ltac:(lia) (proj2 (O 7 3) eq_refl)). lia. }
  split. { intros [H|(j & e & Hj & _)]; [change (zlen C108_tokens) with 10 in H; lia | lia]. }
  split; (split; [lia|]; split; [apply O; reflexivity|]; intros j Hj H; apply O, B in H; lia).
Qed.
Example C108_example :
  getCurrentIndex (fst (toElement (C108_nav [3; 1; 2; 3; -1]) DirFirstChild)) = Ok 4 /\
  getCurrentIndex (fst (toElement (C108_nav [3; 1; 2; 3; -1]) DirLastChild)) = Ok 6 /\
  getCurrentIndex (fst (toElement (C108_nav [4; 1; 2; 3; 6]) DirPrevSibling)) = Ok 4 /\
  snd (toElement (C108_nav [3; 1; 2; 7; -1]) DirFirstChild) = Ok false /\
  snd (toElement (C108_nav [3; 1; 2; 7; -1]) DirLastChild) = Ok false /\
  snd (toElement (C108_nav [4; 1; 2; 7; 9]) DirPrevSibling) = Ok false.
Proof. repeat split; vm_compute; reflexivity. Qed.
