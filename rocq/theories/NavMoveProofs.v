(** Cursor moves. *)
From Verif Require Import Lib Buffer ParserPrim Nav BufferProofs SpecToken TokenProofs SpecNav.

(** ** Context access *)
Lemma ctxAt_ok n i : 0 <= i < zlen (n_ctx n) -> exists v, ctxAt n i = Ok v.
Proof. intros H. unfold ctxAt. destruct (proj2 (znth_some_iff (n_ctx n) i) H) as [v ->]. eauto. Qed.
Lemma ctxAt_range n i v : ctxAt n i = Ok v -> 0 <= i < zlen (n_ctx n).
Proof. unfold ctxAt. destruct (znth _ _) eqn:E; [|discriminate]. intros _. apply znth_range with z. exact E. Qed.
Lemma ctxAt_znth n i v : ctxAt n i = Ok v <-> znth (n_ctx n) i = Some v.
Proof. unfold ctxAt. destruct (znth _ _); split; intros; congruence. Qed.
Lemma ctxSet_ok n i v : 0 <= i < zlen (n_ctx n) -> ctxSet n i v = Ok (w_ctx (upd (n_ctx n) (Z.to_nat i) v) n).
Proof. intros H. unfold ctxSet. rewrite zupd_some by assumption. reflexivity. Qed.
Lemma ctxSet_inv n i v n' : ctxSet n i v = Ok n' ->
  0 <= i < zlen (n_ctx n) /\ n' = w_ctx (upd (n_ctx n) (Z.to_nat i) v) n.
Proof.
  unfold ctxSet. intros H. destruct (zupd _ _ _) eqn:E; [|discriminate].
  assert (R : 0 <= i < zlen (n_ctx n)) by (apply zupd_some_iff with v; eauto).
  split; [exact R|]. rewrite zupd_some in E by exact R. congruence.
Qed.
Lemma zlen_upd {A} (l : list A) i v : zlen (upd l i v) = zlen l.
Proof. unfold zlen. rewrite upd_length. reflexivity. Qed.
Lemma znth_upd_same {A} (l : list A) i v : 0 <= i < zlen l -> znth (upd l (Z.to_nat i) v) i = Some v.
Proof. intros H. apply (zupd_same l _ i v). apply zupd_some. exact H. Qed.
Lemma znth_upd_other {A} (l : list A) i j v : 0 <= i < zlen l -> i <> j -> znth (upd l (Z.to_nat i) v) j = znth l j.
Proof. intros H N. apply (zupd_other l _ i j v); [apply zupd_some; exact H | exact N]. Qed.
Lemma ctxSet_not_err n i v e : ctxSet n i v <> Err e.
Proof. unfold ctxSet. destruct (zupd _ _ _); discriminate. Qed.
Lemma ctxAt_not_err n i e : ctxAt n i <> Err e.
Proof. unfold ctxAt. destruct (znth _ _); discriminate. Qed.

(** ** Token views *)
Definition readable (b : longbuf) (ws : list Z) : Prop :=
  zlen ws < 2^31 /\ forall i w, znth ws i = Some w -> longAt b i = Ok w.
Definition views (b : longbuf) (ws : list Z) : Prop := b_size b = zlen ws /\ readable b ws.
Lemma views_of_repr e (b : longbuf) ws : repr e b ws -> zlen ws <= 2^e -> zlen ws < 2^31 -> views b ws.
Proof.
  intros R H1 H2. split; [exact (rp_size _ _ _ R)|]. split; [exact H2|].
  intros i w Hw. pose proof (znth_range _ _ _ Hw). unfold longAt. apply (bat_read _ e b ws); [exact R|].
  split; [apply znth_value_at; exact Hw | lia].
Qed.
Definition tdepth (w : Z) : Z := if field_depth w =? 255 then -1 else field_depth w.
Lemma view_type n ws i w : readable (n_vtd n) ws -> znth ws i = Some w -> getTokenType n i = Ok (field_type w).
Proof. intros (_ & H) E. apply getTokenType_at. apply H. exact E. Qed.
Lemma view_depth n ws i w : readable (n_vtd n) ws -> znth ws i = Some w -> getTokenDepth n i = Ok (tdepth w).
Proof. intros (_ & H) E. apply (getTokenDepth_at n i w). apply H. exact E. Qed.
Lemma opens_iff ws i d : opens ws i d <-> exists w, znth ws i = Some w /\ field_type w = 0 /\ d = tdepth w.
Proof.
  unfold opens, tdepth. split.
  - intros (H0 & w & Hw & Ht & Hd). exists w. rewrite znth_nth by exact H0. auto.
  - intros (w & Hw & Ht & Hd). pose proof (znth_range _ _ _ Hw). split; [lia|]. exists w.
    rewrite znth_nth in Hw by lia. auto.
Qed.
Lemma opens_range ws i d : opens ws i d -> 0 <= i < zlen ws.
Proof. rewrite opens_iff. intros (w & H & _). apply znth_range with w. exact H. Qed.
Lemma opens_fun ws i d e : opens ws i d -> opens ws i e -> d = e.
Proof. rewrite !opens_iff. intros (w & H & _ & ->) (w' & H' & _ & ->). congruence. Qed.

(** ** Child search *)
Definition placed (n : nav) (d i : Z) : nav := w_ctx (upd (upd (n_ctx n) (Z.to_nat 0) d) (Z.to_nat d) i) n.
Lemma place_ok n d i : 0 < d < zlen (n_ctx n) ->
  mtry n (ctxSet n 0 d) (fun n1 => mtry n1 (ctxSet n1 d i) (fun n2 => (n2, Ok true))) = (placed n d i, Ok true).
Proof.
  intros H. rewrite (ctxSet_ok n 0 d) by lia. cbn [mtry]. rewrite ctxSet_ok by (cbn; rewrite zlen_upd; lia).
  reflexivity.
Qed.
Lemma placed_spec n d i : n_term n = false -> 0 < d < zlen (n_ctx n) ->
  getCurrentIndex (placed n d i) = Ok i /\ ctxAt (placed n d i) 0 = Ok d /\
  (forall j, 1 <= j -> j <> d -> ctxAt (placed n d i) j = ctxAt n j).
Proof.
  intros Ht Hd.
  assert (E0 : znth (n_ctx (placed n d i)) 0 = Some d).
  { cbn. change (Z.to_nat 0) with (Z.to_nat 0). change 0%nat with (Z.to_nat 0).
    rewrite znth_upd_other by (rewrite ?zlen_upd; lia). apply znth_upd_same. lia. }
  assert (Ed : znth (n_ctx (placed n d i)) d = Some i) by (cbn; apply znth_upd_same; rewrite zlen_upd; lia).
  assert (EL : zlen (n_ctx (placed n d i)) = zlen (n_ctx n)) by (cbn [placed w_ctx n_ctx]; rewrite !zlen_upd; reflexivity).
  split; [|split].
  - unfold getCurrentIndex. cbn [placed w_ctx n_term]. rewrite Ht. rewrite (proj2 (ctxAt_znth _ 0 d) E0). cbn [obind].
    destruct (d =? -1) eqn:E1; [lia|]. destruct (d =? 0) eqn:E2; [lia|]. rewrite EL.
    destruct ((d <? 0) || (zlen (n_ctx n) <=? d)) eqn:E3; [lia|]. apply ctxAt_znth. exact Ed.
  - apply ctxAt_znth. exact E0.
  - intros j Hj N. unfold ctxAt. cbn. change 0%nat with (Z.to_nat 0). rewrite !znth_upd_other by (rewrite ?zlen_upd; lia). reflexivity.
Qed.

Lemma firstChildLoop_spec n ws d : readable (n_vtd n) ws -> 0 <= d -> d + 1 < zlen (n_ctx n) ->
  forall k idx, 0 <= idx -> k = Z.to_nat (zlen ws - idx) ->
  (exists i, idx <= i /\ opens ws i (d + 1) /\ (forall j e, idx <= j < i -> opens ws j e -> d + 1 < e) /\
     firstChildLoop k n d idx = (placed n (d + 1) i, Ok true)) \/
  ((forall i, idx <= i -> opens ws i (d + 1) -> exists j e, idx <= j < i /\ opens ws j e /\ e <= d) /\
     firstChildLoop k n d idx = (n, Ok false)).
Proof.
  intros Hv Hd Hc. induction k as [|k IH]; intros idx Hi Hk.
  - right. split; [|reflexivity]. intros i H1 H2. apply opens_range in H2. lia.
  - destruct (proj2 (znth_some_iff ws idx) ltac:(lia)) as [w Hw].
    cbn [firstChildLoop]. rewrite (view_type _ _ _ _ Hv Hw), (view_depth _ _ _ _ Hv Hw). cbn [mtry mtryNil].
    destruct Hv as (Hmax & Hat) eqn:HvE. pose proof (conj Hmax Hat) as Hv'.
    assert (Next : (forall e, opens ws idx e -> d + 1 < e) ->
       firstChildLoop k n d (idx + 1) = firstChildLoop (S k) n d idx ->
       (exists i, idx <= i /\ opens ws i (d + 1) /\ (forall j e, idx <= j < i -> opens ws j e -> d + 1 < e) /\
          firstChildLoop k n d (idx + 1) = (placed n (d + 1) i, Ok true)) \/
       ((forall i, idx <= i -> opens ws i (d + 1) -> exists j e, idx <= j < i /\ opens ws j e /\ e <= d) /\
          firstChildLoop k n d (idx + 1) = (n, Ok false))).
    { intros HO _. destruct (IH (idx + 1) ltac:(lia) ltac:(lia)) as [(i & H1 & H2 & H3 & H4)|(H1 & H2)].
      - left. exists i. split; [lia|]. split; [exact H2|]. split; [|exact H4]. intros j e Hj HoJ.
        destruct (Z.eq_dec j idx) as [->|]; [apply HO; exact HoJ | apply (H3 j e); [lia | exact HoJ]].
      - right. split; [|exact H2]. intros i Hi' Ho. destruct (Z.eq_dec i idx) as [->|]; [specialize (HO _ Ho); lia|].
        destruct (H1 i ltac:(lia) Ho) as (j & e & Hj & Hj2 & Hj3). exists j, e. split; [lia | auto]. }
    change TokStartingTag with 0. destruct (field_type w =? 0) eqn:Et.
    + assert (Ho : opens ws idx (tdepth w)) by (apply opens_iff; exists w; repeat split; [exact Hw | lia]).
      destruct (tdepth w <=? d) eqn:E1.
      * right. split; [|reflexivity]. intros i Hi' Ho'. destruct (Z.eq_dec i idx) as [->|].
        -- pose proof (opens_fun _ _ _ _ Ho Ho'). lia.
        -- exists idx, (tdepth w). split; [lia|]. split; [exact Ho | lia].
      * destruct (tdepth w =? d + 1) eqn:E2.
        -- left. exists idx. split; [lia|]. assert (E : tdepth w = d + 1) by lia. rewrite E in Ho.
           split; [exact Ho|]. split; [intros; lia|]. rewrite place_ok by lia.
           rewrite wrap32_id by lia. reflexivity.
        -- apply Next; [|cbn [firstChildLoop]].
           ++ intros e He. pose proof (opens_fun _ _ _ _ Ho He). lia.
           ++ rewrite (view_type _ _ _ _ Hv' Hw), (view_depth _ _ _ _ Hv' Hw). cbn [mtry mtryNil].
              change TokStartingTag with 0. rewrite Et, E1, E2. reflexivity.
    + apply Next; [|cbn [firstChildLoop]].
      ++ intros e He. apply opens_iff in He. destruct He as (w' & Hw' & Ht & _). assert (w' = w) by congruence. subst. lia.
      ++ rewrite (view_type _ _ _ _ Hv' Hw), (view_depth _ _ _ _ Hv' Hw). cbn [mtry mtryNil].
         change TokStartingTag with 0. rewrite Et. reflexivity.
Qed.

Lemma toFirstChild_spec n ws d cur : views (n_vtd n) ws -> 0 <= d -> d + 1 < zlen (n_ctx n) ->
  ctxAt n 0 = Ok d -> ctxAt n d = Ok cur -> 0 <= cur < 2^31 - 1 ->
  (exists i, first_child ws cur d i /\ toFirstChild n = (placed n (d + 1) i, Ok true)) \/
  ((forall i, ~ first_child ws cur d i) /\ toFirstChild n = (n, Ok false)).
Proof.
  intros Hv Hd Hc H0 Hcur Hr. unfold toFirstChild. rewrite H0. cbn [mtry]. rewrite Hcur. cbn [mtry].
  rewrite wrap32_id by lia. destruct Hv as (Hsz & Hmax & Hat) eqn:HvE. rewrite Hsz. clear HvE.
  destruct (firstChildLoop_spec n ws d (conj Hmax Hat) Hd Hc _ (cur + 1) ltac:(lia) eq_refl) as [(i & H1 & H2 & H3 & H4)|(H1 & H2)].
  - left. exists i. split; [|exact H4]. split; [lia|]. split; [exact H2|]. intros j e Hj Ho. apply (H3 j e); [lia | exact Ho].
  - right. split; [|exact H2]. intros i (F1 & F2 & F3). destruct (H1 i ltac:(lia) F2) as (j & e & Hj & Ho & He).
    specialize (F3 j e ltac:(lia) Ho). lia.
Qed.

(** Last child: [seen last] while scanning. *)
Lemma lastChildLoop_spec n ws d cur : readable (n_vtd n) ws -> 0 <= cur ->
  forall k idx last, cur < idx -> k = Z.to_nat (zlen ws - idx) ->
  (forall j e, cur < j < idx -> opens ws j e -> d < e) ->
  (last = -1 /\ (forall j, cur < j < idx -> ~ opens ws j (d + 1)) \/
   (cur < last < idx /\ opens ws last (d + 1) /\ forall j, last < j < idx -> ~ opens ws j (d + 1))) ->
  exists r, lastChildLoop k n d idx last = Ok (Some r) /\
    ((r = -1 /\ forall i, ~ is_child ws cur d i) \/ (0 <= r /\ last_child ws cur d r)).
Proof.
  intros Hv Hcur. induction k as [|k IH]; intros idx last Hi Hk Hbig Hlast.
  - exists last. split; [reflexivity|]. destruct Hlast as [(-> & Hno)|(Hl & Ho & Hno)].
    + left. split; [reflexivity|]. intros i (I1 & I2 & _). pose proof (opens_range _ _ _ I2). apply (Hno i); [lia | exact I2].
    + right. split; [lia|]. split; [split; [lia|split; [exact Ho|]]|].
      * intros j e Hj. apply Hbig. lia.
      * intros j (J1 & J2 & _). destruct (Z_lt_le_dec last j); [|lia]. pose proof (opens_range _ _ _ J2).
        exfalso. apply (Hno j); [lia | exact J2].
  - destruct (proj2 (znth_some_iff ws idx) ltac:(lia)) as [w Hw].
    cbn [lastChildLoop]. rewrite (view_type _ _ _ _ Hv Hw), (view_depth _ _ _ _ Hv Hw). cbn [obind].
    change TokStartingTag with 0. destruct (field_type w =? 0) eqn:Et.
    + assert (Ho : opens ws idx (tdepth w)) by (apply opens_iff; exists w; repeat split; [exact Hw | lia]).
      destruct (tdepth w <=? d) eqn:E1.
      * exists last. split; [reflexivity|].
        assert (Stop : forall j, is_child ws cur d j -> j < idx).
        { intros j (J1 & J2 & J3). destruct (Z_lt_le_dec j idx); [assumption|]. destruct (Z.eq_dec j idx) as [->|].
          - pose proof (opens_fun _ _ _ _ Ho J2). lia.
          - specialize (J3 idx (tdepth w) ltac:(lia) Ho). lia. }
        destruct Hlast as [(-> & Hno)|(Hl & Hol & Hno)].
        -- left. split; [reflexivity|]. intros i Hi'. specialize (Stop i Hi'). destruct Hi' as (I1 & I2 & _).
           apply (Hno i); [lia | exact I2].
        -- right. split; [lia|]. split; [split; [lia|split; [exact Hol|]]|].
           ++ intros j e Hj. apply Hbig. lia.
           ++ intros j Hj. pose proof (Stop j Hj). destruct (Z_lt_le_dec last j); [|lia]. destruct Hj as (_ & J2 & _).
              exfalso. apply (Hno j); [lia | exact J2].
      * assert (Hbig' : forall j e, cur < j < idx + 1 -> opens ws j e -> d < e).
        { intros j e Hj HoJ. destruct (Z.eq_dec j idx) as [->|].
          - pose proof (opens_fun _ _ _ _ Ho HoJ). lia.
          - apply (Hbig j e); [lia | exact HoJ]. }
        destruct (tdepth w =? d + 1) eqn:E2.
        -- apply IH; [lia | lia | exact Hbig' | ]. right. assert (E : tdepth w = d + 1) by lia. rewrite E in Ho.
           split; [lia|]. split; [exact Ho|]. intros; lia.
        -- apply IH; [lia | lia | exact Hbig' | ].
           destruct Hlast as [(-> & Hno)|(Hl & Hol & Hno)]; [left; split; [reflexivity|] | right; split; [lia|]; split; [exact Hol|]];
             intros j Hj HoJ; (destruct (Z.eq_dec j idx) as [->|];
               [pose proof (opens_fun _ _ _ _ Ho HoJ); lia | apply (Hno j); [lia | exact HoJ]]).
    + assert (Hnone : forall e, ~ opens ws idx e).
      { intros e He. apply opens_iff in He. destruct He as (w' & Hw' & Ht & _). assert (w' = w) by congruence. subst. lia. }
      apply IH; [lia | lia | | ].
      * intros j e Hj HoJ. destruct (Z.eq_dec j idx) as [->|]; [destruct (Hnone _ HoJ) | apply (Hbig j e); [lia | exact HoJ]].
      * destruct Hlast as [(-> & Hno)|(Hl & Hol & Hno)]; [left; split; [reflexivity|] | right; split; [lia|]; split; [exact Hol|]];
          intros j Hj HoJ; (destruct (Z.eq_dec j idx) as [->|]; [destruct (Hnone _ HoJ) | apply (Hno j); [lia | exact HoJ]]).
Qed.
Lemma toLastChild_spec n ws d cur : views (n_vtd n) ws -> 0 <= d -> d + 1 < zlen (n_ctx n) ->
  ctxAt n 0 = Ok d -> ctxAt n d = Ok cur -> 0 <= cur < 2^31 - 1 ->
  (exists i, last_child ws cur d i /\ toLastChild n = (placed n (d + 1) i, Ok true)) \/
  ((forall i, ~ is_child ws cur d i) /\ toLastChild n = (n, Ok false)).
Proof.
  intros Hv Hd Hc H0 Hcur Hr. unfold toLastChild. rewrite H0. cbn [mtry]. rewrite Hcur. cbn [mtry].
  rewrite wrap32_id by lia. pose proof Hv as (Hsz & Hmax & Hat). rewrite Hsz.
  destruct (lastChildLoop_spec n ws d cur (proj2 Hv) ltac:(lia) _ (cur + 1) (-1) ltac:(lia) eq_refl) as (r & E & HR).
  { intros; lia. }
  { left. split; [reflexivity | intros; lia]. }
  rewrite E. cbn [mtry]. destruct HR as [(-> & Hno)|(Hr0 & Hl)].
  - right. split; [exact Hno | reflexivity].
  - left. exists r. split; [exact Hl|]. destruct (r =? -1) eqn:E1; [lia|].
    destruct Hl as ((_ & Ho & _) & _). pose proof (opens_range _ _ _ Ho).
    rewrite wrap32_id by lia. apply place_ok. lia.
Qed.
Lemma child_first ws cur d i : is_child ws cur d i -> exists j, first_child ws cur d j.
Proof.
  intros (H1 & H2 & H3).
  (* least opening at depth d+1 after cur *)
  assert (forall k : nat, (exists j, cur < j <= cur + Z.of_nat k /\ opens ws j (d + 1)) ->
     exists j, cur < j <= cur + Z.of_nat k /\ opens ws j (d + 1) /\ forall m, cur < m < j -> ~ opens ws m (d + 1)) as Least.
  { induction k as [|k IH]; intros (j & Hj & Ho); [lia|].
    assert (D : (exists j, cur < j <= cur + Z.of_nat k /\ opens ws j (d + 1)) \/ forall m, cur < m <= cur + Z.of_nat k -> ~ opens ws m (d + 1)).
    { clear - IH. clear IH. induction k as [|k IHk].
      - right. intros; lia.
      - destruct IHk as [(j & Hj & Ho)|IHk]; [left; exists j; split; [lia | exact Ho]|].
        destruct (znth ws (cur + Z.of_nat (S k))) as [w|] eqn:E.
        + destruct (Z.eq_dec (field_type w) 0); [destruct (Z.eq_dec (tdepth w) (d + 1))|].
          * left. exists (cur + Z.of_nat (S k)). split; [lia|]. apply opens_iff. exists w. auto.
          * right. intros m Hm Ho. destruct (Z.eq_dec m (cur + Z.of_nat (S k))) as [->|]; [|apply (IHk m); [lia | exact Ho]].
            apply opens_iff in Ho. destruct Ho as (w' & Hw' & _ & Hd). assert (w' = w) by congruence. subst. congruence.
          * right. intros m Hm Ho. destruct (Z.eq_dec m (cur + Z.of_nat (S k))) as [->|]; [|apply (IHk m); [lia | exact Ho]].
            apply opens_iff in Ho. destruct Ho as (w' & Hw' & Hd & _). assert (w' = w) by congruence. subst. congruence.
        + right. intros m Hm Ho. destruct (Z.eq_dec m (cur + Z.of_nat (S k))) as [->|]; [|apply (IHk m); [lia | exact Ho]].
          apply opens_range in Ho. apply znth_none_iff in E. lia. }
    destruct D as [D|D].
    - destruct (IH D) as (j' & A & B & C). exists j'. split; [lia | auto].
    - exists j. split; [lia|]. split; [exact Ho|]. intros m Hm. apply D. lia. }
  destruct (Least (Z.to_nat (i - cur))) as (j & Hj & Ho & Hmin); [exists i; split; [lia | exact H2]|].
  exists j. split; [lia|]. split; [exact Ho|]. intros m e Hm Hom.
  assert (d < e) by (apply (H3 m e); [lia | exact Hom]). destruct (Z.eq_dec e (d + 1)) as [->|]; [exfalso; apply (Hmin m); [lia | exact Hom] | lia].
Qed.

(** ** Siblings below the cached levels *)
Lemma nextSiblingLoop_never n d : forall k idx, snd (nextSiblingLoop k n d idx) <> Ok true /\ fst (nextSiblingLoop k n d idx) = n.
Proof.
  induction k as [|k IH]; intros idx; cbn [nextSiblingLoop]; [split; [discriminate | reflexivity]|].
  destruct (getTokenType n idx); cbn [mtryNil]; [|split; [discriminate | reflexivity]|split; [discriminate | reflexivity]].
  destruct (getTokenDepth n idx) as [t| |]; cbn [mtry]; [|split; [discriminate | reflexivity]|split; [discriminate | reflexivity]].
  destruct (a =? TokStartingTag); [|apply IH].
  destruct (t <=? d) eqn:E1; [split; [discriminate | reflexivity]|].
  destruct (t =? d) eqn:E2; [lia | apply IH].
Qed.
Lemma nextSiblingLoop_view n ws d : readable (n_vtd n) ws ->
  forall k idx, 0 <= idx -> k = Z.to_nat (zlen ws - idx) -> nextSiblingLoop k n d idx = (n, Ok false).
Proof.
  intros Hv. induction k as [|k IH]; intros idx Hi Hk; cbn [nextSiblingLoop]; [reflexivity|].
  destruct (proj2 (znth_some_iff ws idx) ltac:(lia)) as [w Hw].
  rewrite (view_type _ _ _ _ Hv Hw), (view_depth _ _ _ _ Hv Hw). cbn [mtry mtryNil].
  destruct (field_type w =? TokStartingTag); [|apply IH; lia].
  destruct (tdepth w <=? d) eqn:E1; [reflexivity|].
  destruct (tdepth w =? d) eqn:E2; [lia | apply IH; lia].
Qed.

Lemma prevSiblingLoop_spec n ws d parent cur : readable (n_vtd n) ws -> 0 <= d < zlen (n_ctx n) -> cur <= zlen ws -> -1 <= parent ->
  forall k idx, idx < cur -> k = Z.to_nat (idx - parent) ->
  (forall j, idx < j < cur -> ~ opens ws j d) ->
  (exists i, prev_sibling ws parent cur d i /\
     prevSiblingLoop k n d idx = (w_ctx (upd (n_ctx n) (Z.to_nat d) i) n, Ok true)) \/
  ((forall i, ~ prev_sibling ws parent cur d i) /\ prevSiblingLoop k n d idx = (n, Ok false)).
Proof.
  intros Hv Hd Hcur Hp. induction k as [|k IH]; intros idx Hi Hk Hno.
  - right. split; [|reflexivity]. intros i (I1 & I2 & I3). apply (Hno i); [lia | exact I2].
  - destruct (proj2 (znth_some_iff ws idx) ltac:(lia)) as [w Hw].
    cbn [prevSiblingLoop]. rewrite (view_type _ _ _ _ Hv Hw), (view_depth _ _ _ _ Hv Hw). cbn [mtry mtryNil].
    change TokStartingTag with 0. destruct ((field_type w =? 0) && (tdepth w =? d)) eqn:E.
    + left. exists idx. assert (Ho : opens ws idx d) by (apply opens_iff; exists w; repeat split; [exact Hw | lia | lia]).
      split; [split; [lia|]; split; [exact Ho | exact Hno]|].
      rewrite ctxSet_ok by lia. cbn [mtry]. destruct Hv as (Hmax & _). pose proof (opens_range _ _ _ Ho).
      rewrite wrap32_id by lia. reflexivity.
    + apply IH; [lia | lia|]. intros j Hj Ho. destruct (Z.eq_dec j idx) as [->|]; [|apply (Hno j); [lia | exact Ho]].
      apply opens_iff in Ho. destruct Ho as (w' & Hw' & Ht & Hdd). assert (w' = w) by congruence. subst. lia.
Qed.
Lemma sibling_placed n d i : n_term n = false -> 0 < d < zlen (n_ctx n) -> ctxAt n 0 = Ok d ->
  let n' := w_ctx (upd (n_ctx n) (Z.to_nat d) i) n in
  getCurrentIndex n' = Ok i /\ ctxAt n' 0 = Ok d /\ (forall j, j <> d -> ctxAt n' j = ctxAt n j).
Proof.
  intros Ht Hd H0 n'.
  assert (EL : zlen (n_ctx n') = zlen (n_ctx n)) by (cbn; apply zlen_upd).
  assert (Ed : znth (n_ctx n') d = Some i) by (cbn; apply znth_upd_same; lia).
  assert (EO : forall j, j <> d -> ctxAt n' j = ctxAt n j) by (intros j N; unfold ctxAt; cbn; rewrite znth_upd_other by lia; reflexivity).
  split; [|split; [rewrite EO by lia; exact H0 | exact EO]].
  unfold getCurrentIndex. cbn [n' w_ctx n_term]. rewrite Ht. fold n'. rewrite EO by lia. rewrite H0. cbn [obind].
  destruct (d =? -1) eqn:E1; [lia|]. destruct (d =? 0) eqn:E2; [lia|]. rewrite EL.
  destruct ((d <? 0) || (zlen (n_ctx n) <=? d)) eqn:E3; [lia|]. apply ctxAt_znth. exact Ed.
Qed.
