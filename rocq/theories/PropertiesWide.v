(** The children of the root over the tables of the parser when the first table has
    more than one page. *)
From Verif Require Import Lib XmlChar Buffer BufferProofs SpecBuffer Reader ParserState ParserPrim ParserProc ParserMain Output SpecOutput SpecParse ParserWp ParserOutcome ParserFrame
  SpecToken SpecNav Nav NavCacheProofs NavMoveProofs SpecDoc SpecLoc DocBase DocLoc NavParsed PropertiesParse PropertiesQuirks PropertiesDoc PropertiesPages PropertiesTree PropertiesOutput ParserLog ParserTree ParserCount PropertiesCache PropertiesRead.

(** ** The moves *)
(** The cursor is on the first level, entry [i], with current token [x]. *)
Record on1 (n : nav) (b : longbuf) (i x : Z) : Prop := {
  o1_term : n_term n = false;
  o1_ctx : znth (n_ctx n) 0 = Some 1;
  o1_cur : znth (n_ctx n) 1 = Some x;
  o1_room : 1 < zlen (n_ctx n);
  o1_b : n_l1 n = b;
  o1_i : n_l1i n = i }.
Lemma on1_current n b i x : on1 n b i x -> getCurrentIndex n = Ok x.
Proof.
  intros K. unfold getCurrentIndex. rewrite (o1_term _ _ _ _ K). unfold ctxAt. rewrite (o1_ctx _ _ _ _ K). cbn [obind]. change (1 =? -1) with false. change (1 =? 0) with false. cbv iota.
  pose proof (o1_room _ _ _ _ K). replace ((1 <? 0) || (zlen (n_ctx n) <=? 1)) with false by lia. rewrite (o1_cur _ _ _ _ K). reflexivity.
Qed.
Lemma on1_next n b i x w : on1 n b i x -> i + 1 < b_size b -> longAt b (i + 1) = Ok w ->
  exists n', toElement n DirNextSibling = (n', Ok true) /\ on1 n' b (i + 1) (entry_token w).
Proof.
  intros K L E. change (toElement n DirNextSibling) with (toSiblingElement n true). unfold toSiblingElement. rewrite (o1_term _ _ _ _ K). unfold ctxAt at 1. rewrite (o1_ctx _ _ _ _ K). cbn [mtry].
  change ((1 =? -1) || (1 =? 0)) with false. change (1 =? 1) with true. cbn iota. rewrite (o1_i _ _ _ _ K), (o1_b _ _ _ _ K).
  replace (b_size b <=? i + 1) with false by lia. cbv zeta. navsimp. rewrite (o1_b _ _ _ _ K). unfold upper32At. rewrite E. cbn [obind]. rewrite upper32_entry. cbn [mtry].
  pose proof (o1_room _ _ _ _ K) as R. rewrite ctxSet_ok by (navsimp; lia). cbn [mtry]. eexists. split; [reflexivity|].
  constructor; navsimp; try reflexivity; try apply K; [rewrite znth_upd_other by lia; apply K | apply znth_upd_same; lia | rewrite zlen_upd; exact R].
Qed.
Lemma on1_stuck n b i x : on1 n b i x -> (forall w, longAt b (i + 1) <> Ok w) ->
  snd (toElement n DirNextSibling) <> Ok true /\ exists j, i <= j <= i + 1 /\ on1 (fst (toElement n DirNextSibling)) b j x.
Proof.
  intros K E. change (toElement n DirNextSibling) with (toSiblingElement n true). unfold toSiblingElement. rewrite (o1_term _ _ _ _ K). unfold ctxAt. rewrite (o1_ctx _ _ _ _ K). cbn [mtry].
  change ((1 =? -1) || (1 =? 0)) with false. change (1 =? 1) with true. cbn iota. rewrite (o1_i _ _ _ _ K), (o1_b _ _ _ _ K).
  destruct (b_size b <=? i + 1). { split; [discriminate|]. exists i. split; [lia | exact K]. }
  cbv zeta. navsimp. rewrite (o1_b _ _ _ _ K). unfold upper32At. destruct (longAt b (i + 1)) as [w|e|q]; [destruct (E w eq_refl)|..]; cbn [obind mtry fst snd];
    (split; [discriminate|]; exists (i + 1); split; [lia|]; constructor; navsimp; try reflexivity; apply K).
Qed.
(** NextSibling called [k] times, whatever it answers *)
Fixpoint again (k : nat) (n : nav) : nav := match k with O => n | S k' => again k' (fst (toElement n DirNextSibling)) end.
Lemma on1_again k : forall n b i x, on1 n b i x -> (forall j w, i < j -> longAt b j <> Ok w) ->
  snd (toElement (again k n) DirNextSibling) <> Ok true /\ getCurrentIndex (again k n) = Ok x.
Proof.
  induction k as [|k IH]; intros n b i x K E; cbn [again]; destruct (on1_stuck n b i x K (fun w => E (i + 1) w ltac:(lia))) as (A & j & J & K').
  - split; [exact A | exact (on1_current _ _ _ _ K)].
  - apply (IH _ b j x K'). intros m w Hm. apply E. lia.
Qed.
Lemma on1_visit b ws : b_size b = zlen ws -> forall k n i x, 0 <= i -> on1 n b i x -> (forall j w, i < j <= i + Z.of_nat k -> znth ws j = Some w -> longAt b j = Ok w) -> i + Z.of_nat k < zlen ws ->
  exists n' y, visit n (repeat DirNextSibling k) = Some (n', map entry_token (firstn k (skipn (Z.to_nat (i + 1)) ws))) /\ on1 n' b (i + Z.of_nat k) y /\
    y = last (x :: map entry_token (firstn k (skipn (Z.to_nat (i + 1)) ws))) 0.
Proof.
  intros S. induction k as [|k IH]; intros n i x Hi K R L.
  - exists n, x. split; [reflexivity|]. rewrite Z.add_0_r. split; [exact K | reflexivity].
  - destruct (proj2 (znth_some_iff ws (i + 1)) ltac:(lia)) as (w & Hw).
    destruct (on1_next n b i x w K ltac:(lia) (R (i + 1) w ltac:(lia) Hw)) as (n1 & M & K1).
    destruct (IH n1 (i + 1) (entry_token w) ltac:(lia) K1 ltac:(intros j v Hj; apply R; lia) ltac:(lia)) as (n2 & y & V & K2 & Ey).
    assert (Sk : skipn (Z.to_nat (i + 1)) ws = w :: skipn (Z.to_nat (i + 1 + 1)) ws).
    { rewrite znth_nth in Hw by lia. replace (Z.to_nat (i + 1 + 1)) with (Datatypes.S (Z.to_nat (i + 1))) by lia. clear - Hw. revert Hw. generalize (Z.to_nat (i + 1)). intros m. revert ws.
      induction m as [|m IH]; intros [|z ws] Hw; try discriminate Hw; [injection Hw as ->; reflexivity | cbn [skipn]; apply IH; exact Hw]. }
    rewrite Sk. cbn [firstn map repeat]. exists n2, y. split; [exact (visit_cons _ _ _ _ _ _ _ M (on1_current _ _ _ _ K1) V)|]. split.
    + replace (i + Z.of_nat (Datatypes.S k)) with (i + 1 + Z.of_nat k) by lia. exact K2.
    + rewrite Ey. reflexivity.
Qed.
(** From the root *)
Lemma root_first n b ws w : n_term n = false -> znth (n_ctx n) 0 = Some 0 -> 1 < zlen (n_ctx n) -> n_l1 n = b -> b_size b = zlen ws -> znth ws 0 = Some w -> longAt b 0 = Ok w ->
  exists n', toElement n DirFirstChild = (n', Ok true) /\ on1 n' b 0 (entry_token w).
Proof.
  intros HT HC R Hb S E A. pose proof (znth_range _ _ _ E). change (toElement n DirFirstChild) with (toChildElement n true). unfold toChildElement. rewrite HT. unfold ctxAt at 1. rewrite HC. cbn [mtry].
  change (0 =? -1) with false. change (0 =? 0) with true. cbn iota. rewrite Hb, S. destruct (zlen ws =? 0) eqn:EZ; [lia|].
  rewrite ctxSet_ok by lia. cbn [mtry]. cbv zeta. navsimp. rewrite Hb. unfold upper32At. rewrite A. cbn [obind]. rewrite upper32_entry. cbn [mtry].
  rewrite ctxSet_ok by (navsimp; rewrite ?zlen_upd; lia). cbn [mtry]. eexists. split; [reflexivity|].
  constructor; navsimp; try reflexivity; try assumption;
    [rewrite znth_upd_other by (rewrite ?zlen_upd; lia); apply (znth_upd_same (n_ctx n) 0); lia | apply znth_upd_same; rewrite ?zlen_upd; lia | rewrite !zlen_upd; exact R].
Qed.
Lemma root_last n b : n_term n = false -> znth (n_ctx n) 0 = Some 0 -> 1 < zlen (n_ctx n) -> n_l1 n = b -> (forall w, longAt b (b_size b - 1) <> Ok w) -> snd (toElement n DirLastChild) <> Ok true.
Proof.
  intros HT HC R Hb A. change (toElement n DirLastChild) with (toChildElement n false). unfold toChildElement. rewrite HT. unfold ctxAt at 1. rewrite HC. cbn [mtry].
  change (0 =? -1) with false. change (0 =? 0) with true. cbn iota. rewrite Hb. destruct (b_size b =? 0) eqn:EZ; [discriminate|].
  rewrite ctxSet_ok by lia. cbn [mtry]. cbv zeta. navsimp. rewrite Hb. unfold upper32At. destruct (longAt b (b_size b - 1)) as [w|e|q]; [destruct (A w eq_refl) | discriminate..].
Qed.
Lemma start_wide root o l depth enc ns bytes vtd l1 l2 l3 n : newVtdNav root o l depth enc ns bytes vtd l1 l2 l3 = Ok n -> 2 <= depth ->
  exists n1, toElement n DirFirstChild = (n1, Ok true) /\ getCurrentIndex n1 = Ok root /\ n_term n1 = false /\ znth (n_ctx n1) 0 = Some 0 /\ 1 < zlen (n_ctx n1) /\ n_l1 n1 = l1.
Proof.
  intros N D. unfold newVtdNav in N. destruct (depth <? 0) eqn:Ed; [discriminate N|]. destruct (newUniByteBuffer bytes) as [xml|e|w]; [|discriminate N..]. cbn [obind] in N. injection N as <-.
  assert (Lc : zlen (repeat (-1) (Z.to_nat depth)) = depth) by (unfold zlen; rewrite repeat_length; lia).
  assert (E0 : znth (repeat (-1) (Z.to_nat depth)) 0 = Some (-1)) by (destruct (Z.to_nat depth) as [|k] eqn:Ek; [lia | reflexivity]).
  change (toElement ?m DirFirstChild) with (toChildElement m true). unfold toChildElement. cbn [n_term]. unfold ctxAt at 1. cbn [n_ctx]. rewrite E0. cbn [mtry]. change (-1 =? -1) with true. cbv iota.
  rewrite ctxSet_ok by (cbn [n_ctx]; lia). cbn [mtry n_ctx]. eexists. split; [reflexivity|]. navsimp.
  assert (E1 : znth (upd (repeat (-1) (Z.to_nat depth)) (Z.to_nat 0) 0) 0 = Some 0) by (apply znth_upd_same; lia).
  split; [unfold getCurrentIndex, ctxAt; navsimp; rewrite E1; reflexivity|].
  repeat split; [exact E1 | rewrite zlen_upd; lia].
Qed.

(** ** C113 *)
Theorem C113_many_children : forall opts s, Forall go_value opts -> shallow_of opts = false -> runParser opts = Parsed s -> b_size (s_vtd s) < 2^28 ->
  exists w, exports s w /\
    let tags := start_tags 0 (read_tokens w) in
    let kids := of_depth 1 tags in
    let page := nth 1 (page_sizes (snd (window_of opts))) 0 in
    page < zlen kids ->
    forall o l depth enc ns bytes n, newVtdNav (s_rootIndex s) o l depth enc ns bytes (s_vtd s) (s_l1 s) (s_l2 s) (s_l3 s) = Ok n -> 2 <= depth ->
    exists n0 n1 r, hd_error tags = Some (r, 0) /\
      visit n [DirFirstChild] = Some (n0, [r]) /\ snd (toElement n0 DirLastChild) <> Ok true /\
      visit n (DirFirstChild :: tour true (firstn (Z.to_nat page) kids)) = Some (n1, r :: firstn (Z.to_nat page) kids) /\
      forall k, snd (toElement (again k n1) DirNextSibling) <> Ok true /\ getCurrentIndex (again k n1) = Ok (last (firstn (Z.to_nat page) kids) 0).
Proof.
  intros opts s F Sh E B. destruct (parsed_cached opts s F Sh E B) as (w & X & C). exists w. split; [exact X|]. cbv zeta.
  set (tags := start_tags 0 (read_tokens w)) in *. destruct C as (Root & Lt & Bt & (e1 & R1 & P1) & _). rewrite <- P1.
  intros K o l depth enc ns bytes n N D. pose proof (pow2_pos e1 ltac:(pose proof (rp_e _ _ _ R1); lia)) as HP.
  assert (T : map entry_token (level 1 0 tags) = of_depth 1 tags) by (apply level_tokens; [intros e He; specialize (Bt e He); lia | lia..]).
  pose proof (level_count 1 tags 0) as CT. set (ws := level 1 0 tags) in *.
  assert (Sz : b_size (s_l1 s) = zlen ws) by exact (rp_size _ _ _ R1).
  assert (RD : forall j v, znth ws j = Some v -> j < 2^e1 -> longAt (s_l1 s) j = Ok v) by (intros j v Hj Hl; apply (bat_read _ _ _ _ _ _ R1); split; [apply znth_value_at; exact Hj | exact Hl]).
  assert (NRD : forall j v, 2^e1 <= j -> longAt (s_l1 s) j <> Ok v) by (intros j v Hj Ev; apply (bat_read _ _ _ _ _ _ R1) in Ev; lia).
  destruct (start_wide _ _ _ _ _ _ _ _ _ _ _ _ N D) as (n0 & M0 & C0 & HT & HC & HR & HL).
  destruct (proj2 (znth_some_iff ws 0) ltac:(lia)) as (v0 & Hv0).
  destruct (root_first n0 _ ws v0 HT HC HR HL Sz Hv0 (RD 0 v0 Hv0 ltac:(lia))) as (n1 & M1 & K1).
  destruct (on1_visit (s_l1 s) ws Sz (Z.to_nat (2^e1 - 1)) n1 0 _ ltac:(lia) K1 ltac:(intros j v Hj Hz; apply RD; [exact Hz | lia]) ltac:(lia)) as (n2 & y & V2 & K2 & Ey).
  assert (W : ws = v0 :: skipn 1 ws) by (destruct ws as [|z ws']; [discriminate Hv0 | rewrite znth_cons0 in Hv0; injection Hv0 as ->; reflexivity]).
  assert (FW : firstn (Z.to_nat (2^e1)) (of_depth 1 tags) = entry_token v0 :: map entry_token (firstn (Z.to_nat (2^e1 - 1)) (skipn 1 ws))).
  { rewrite <- T, W at 1. replace (Z.to_nat (2^e1)) with (S (Z.to_nat (2^e1 - 1))) by lia. cbn [map firstn]. rewrite firstn_map. reflexivity. }
  change (Z.to_nat (0 + 1)) with 1%nat in *.
  exists n0, n2, (s_rootIndex s). split; [exact Root|]. split; [cbn [visit]; rewrite M0, C0; reflexivity|].
  split. { apply (root_last n0 _ HT HC HR HL). intros v. apply NRD. lia. }
  split.
  - rewrite FW. cbn [tour]. change (chd true) with DirFirstChild. change (fun _ : Z => sib true) with (fun _ : Z => DirNextSibling). rewrite map_const_repeat, map_length, firstn_length.
    replace (Nat.min (Z.to_nat (2^e1 - 1)) (length (skipn 1 ws))) with (Z.to_nat (2^e1 - 1)) by (rewrite skipn_length; unfold zlen in *; lia).
    exact (visit_cons _ _ _ _ _ _ _ M0 C0 (visit_cons _ _ _ _ _ _ _ M1 (on1_current _ _ _ _ K1) V2)).
  - intros k. rewrite FW, <- Ey. apply (on1_again k n2 _ _ _ K2). intros j v Hj. apply NRD. lia.
Qed.
Print Assumptions C113_many_children.

(** 33 children and a page of 32 *)
Example C113_example :
  match runParser [OXmlDoc (Some (bytes_of ("<a>" ++ copies 33 "<b/>" ++ "</a>"))); OLcDepth 5] with
  | Parsed s => match toArray (s_vtd s) with Some (Ok w) => zlen (of_depth 1 (start_tags 0 (read_tokens w))) = 33 | _ => False end
  | _ => False
  end /\ nth 1 (page_sizes (snd (window_of [OXmlDoc (Some (bytes_of ("<a>" ++ copies 33 "<b/>" ++ "</a>"))); OLcDepth 5]))) 0 = 32.
Proof. split; vm_compute; reflexivity. Qed.
