(** NextSibling and PrevSibling between elements of the second level, over the tables
    of the parser. *)
From Verif Require Import Lib XmlChar Buffer BufferProofs SpecBuffer Reader ParserState ParserPrim ParserProc ParserMain Output SpecOutput SpecParse ParserWp ParserOutcome ParserFrame
  SpecToken SpecNav Nav NavCacheProofs NavMoveProofs SpecDoc SpecLoc DocBase DocLoc NavParsed PropertiesParse PropertiesQuirks PropertiesDoc PropertiesPages PropertiesTree PropertiesOutput ParserLog ParserTree ParserCount PropertiesCache PropertiesRead PropertiesLast.

(** ** The moves *)
(** The cursor is on the second level, entry [c] with [up] the last one, below an
    element of the first level whose entry has the token [p]. *)
Record at2 (n : nav) (p lo c up : Z) : Prop := {
  a2_term : n_term n = false;
  a2_ctx : znth (n_ctx n) 0 = Some 2;
  a2_room : 2 < zlen (n_ctx n);
  a2_parent : upper32At (n_l1 n) (n_l1i n) = Ok p;
  a2_lo : n_l2lo n = lo;
  a2_i : n_l2i n = c;
  a2_up : n_l2up n = up }.
Lemma child1_state n ws i w v up : at1 n ws i -> znth ws i = Some w -> entry_child w <> -1 -> 2 < zlen (n_ctx n) -> longAt (n_l2 n) (entry_child w) = Ok v ->
  upperBound (n_l1 n) (i + 1) (wrap32 (b_size (n_l2 n) - 1)) = Ok up ->
  exists n', toElement n DirFirstChild = (n', Ok true) /\ getCurrentIndex n' = Ok (entry_token v) /\ at2 n' (entry_token w) (entry_child w) (entry_child w) up /\
    n_l2 n' = n_l2 n /\ n_l3 n' = n_l3 n /\ zlen (n_ctx n') = zlen (n_ctx n).
Proof.
  intros K E L R EV UB'. pose proof (a1_views _ _ _ K) as H1. pose proof (a1_in _ _ _ K) as Ri. change (toElement n DirFirstChild) with (toChildElement n true).
  unfold toChildElement. rewrite (a1_term _ _ _ K). unfold ctxAt at 1. rewrite (a1_ctx _ _ _ K).
  cbn [mtry]. change (1 =? -1) with false. change (1 =? 0) with false. change (1 =? 1) with true. cbn iota.
  rewrite (a1_i _ _ _ K), (view_lower _ _ _ _ H1 E). cbn [mtry]. cbv zeta.
  destruct (entry_child w =? -1) eqn:EL; [lia|].
  rewrite ctxSet_ok by (cbn [w_l2lo n_ctx]; lia). cbn [mtry]. navsimp. rewrite (a1_i _ _ _ K), UB'. cbn [mtry]. navsimp.
  assert (U : upper32At (n_l2 n) (entry_child w) = Ok (entry_token v)) by (unfold upper32At; rewrite EV, upper32_entry; reflexivity). rewrite U. cbn [mtryNil].
  rewrite ctxSet_ok by (navsimp; rewrite ?zlen_upd; lia). cbn [mtry]. eexists. split; [reflexivity|]. split.
  { refine (proj1 (placed_spec (w_l2i (entry_child w) (w_l2up up (w_l2lo (entry_child w) n))) 2 (entry_token v) (a1_term _ _ _ K) ltac:(navsimp; lia))). }
  split; [|navsimp; rewrite !zlen_upd; auto]. split; navsimp; try reflexivity.
  - exact (a1_term _ _ _ K).
  - rewrite znth_upd_other by (rewrite ?zlen_upd; lia). apply (znth_upd_same (n_ctx n) 0). lia.
  - rewrite !zlen_upd. exact R.
  - rewrite (a1_i _ _ _ K). destruct H1 as (_ & _ & H1). unfold upper32At. rewrite (H1 _ _ E), upper32_entry. reflexivity.
Qed.
Lemma sib2_next n p lo c up : at2 n p lo c up -> c < up ->
  exists n', toElement n DirNextSibling = (n', Ok true) /\ getCurrentIndex n' = Ok p /\ at2 n' p lo (c + 1) up.
Proof.
  intros K L. change (toElement n DirNextSibling) with (toSiblingElement n true). unfold toSiblingElement. rewrite (a2_term _ _ _ _ _ K). unfold ctxAt at 1. rewrite (a2_ctx _ _ _ _ _ K). cbn [mtry].
  change ((2 =? -1) || (2 =? 0)) with false. change (2 =? 1) with false. change (2 =? 2) with true. cbn iota. rewrite (a2_i _ _ _ _ _ K), (a2_up _ _ _ _ _ K).
  replace (up <? c + 1) with false by lia. cbv zeta. navsimp. rewrite (a2_parent _ _ _ _ _ K). cbn [mtry]. pose proof (a2_room _ _ _ _ _ K) as R.
  rewrite ctxSet_ok by (navsimp; lia). cbn [mtry]. eexists. split; [reflexivity|].
  assert (E0 : znth (upd (n_ctx n) (Z.to_nat 2) p) 0 = Some 2) by (rewrite znth_upd_other by lia; exact (a2_ctx _ _ _ _ _ K)).
  split.
  - unfold getCurrentIndex. navsimp. rewrite (a2_term _ _ _ _ _ K). unfold ctxAt. navsimp. rewrite E0. cbn [obind]. change (2 =? -1) with false. change (2 =? 0) with false. cbv iota.
    rewrite zlen_upd. replace ((2 <? 0) || (zlen (n_ctx n) <=? 2)) with false by lia. rewrite znth_upd_same by lia. reflexivity.
  - split; navsimp; try reflexivity; try apply K; [exact E0 | rewrite zlen_upd; exact R].
Qed.
Lemma sib2_end n p lo c up : at2 n p lo c up -> up <= c -> toElement n DirNextSibling = (n, Ok false).
Proof.
  intros K L. change (toElement n DirNextSibling) with (toSiblingElement n true). unfold toSiblingElement. rewrite (a2_term _ _ _ _ _ K). unfold ctxAt at 1. rewrite (a2_ctx _ _ _ _ _ K). cbn [mtry].
  change ((2 =? -1) || (2 =? 0)) with false. change (2 =? 1) with false. change (2 =? 2) with true. cbn iota. rewrite (a2_i _ _ _ _ _ K), (a2_up _ _ _ _ _ K).
  replace (up <? c + 1) with true by lia. reflexivity.
Qed.
Lemma sib2_first n p lo up : at2 n p lo lo up -> toElement n DirPrevSibling = (n, Ok false).
Proof.
  intros K. change (toElement n DirPrevSibling) with (toSiblingElement n false). unfold toSiblingElement. rewrite (a2_term _ _ _ _ _ K). unfold ctxAt at 1. rewrite (a2_ctx _ _ _ _ _ K). cbn [mtry].
  change ((2 =? -1) || (2 =? 0)) with false. change (2 =? 1) with false. change (2 =? 2) with true. cbn iota. rewrite (a2_i _ _ _ _ _ K), (a2_lo _ _ _ _ _ K).
  replace (lo - 1 <? lo) with true by lia. reflexivity.
Qed.
Lemma sibs2 k : forall n p lo c up, at2 n p lo c up -> c + Z.of_nat k <= up ->
  exists n', visit n (repeat DirNextSibling k) = Some (n', repeat p k) /\ at2 n' p lo (c + Z.of_nat k) up.
Proof.
  induction k as [|k IH]; intros n p lo c up K L.
  - exists n. split; [reflexivity|]. rewrite Z.add_0_r. exact K.
  - destruct (sib2_next n p lo c up K ltac:(lia)) as (n1 & M & C & K1). destruct (IH n1 p lo (c + 1) up K1 ltac:(lia)) as (n2 & V & K2).
    exists n2. cbn [repeat]. split; [exact (visit_cons _ _ _ _ _ _ _ M C V)|]. replace (c + Z.of_nat (S k)) with (c + 1 + Z.of_nat k) by lia. exact K2.
Qed.

(** ** The specification *)
(** How often NextSibling reports success from the first child on: once for every
    further child if the next element of the first level has children, or there is none;
    otherwise up to the mark for "no children". *)
Definition further (a t : list (Z * Z)) : Z :=
  match reach a t with
  | Some _ => zlen (of_depth 2 (fst (until_next t))) - 1
  | None => 65534 - zlen (of_depth 2 a)
  end.
Definition siblings_found (opts : list popt) (s : pst) (tags : list (Z * Z)) : Prop :=
  zlen (of_depth 1 tags) <= nth 1 (page_sizes (snd (window_of opts))) 0 ->
  forall a i c t, tags = a ++ (i, 1) :: (c, 2) :: t -> zlen (of_depth 2 a) < nth 2 (page_sizes (snd (window_of opts))) 0 ->
  forall o l depth enc ns bytes n, newVtdNav (s_rootIndex s) o l depth enc ns bytes (s_vtd s) (s_l1 s) (s_l2 s) (s_l3 s) = Ok n -> 3 <= depth ->
  let here := DirFirstChild :: path (length (of_depth 1 a)) ++ [DirFirstChild] in
  0 <= further a ((c, 2) :: t) /\
  (exists n1 r, visit n here = Some (n1, r :: of_depth 1 a ++ [i; c]) /\ toElement n1 DirPrevSibling = (n1, Ok false)) /\
  forall k, Z.of_nat k <= further a ((c, 2) :: t) ->
    exists n2 r, visit n (here ++ repeat DirNextSibling k) = Some (n2, r :: of_depth 1 a ++ [i; c] ++ repeat i k) /\
      (Z.of_nat k = further a ((c, 2) :: t) -> toElement n2 DirNextSibling = (n2, Ok false)).

(** The first child of an element of the first level, and the state there *)
Lemma second_level opts s N0 tags : cached opts s N0 tags -> N0 < 2^28 ->
  zlen (of_depth 1 tags) <= nth 1 (page_sizes (snd (window_of opts))) 0 ->
  forall a i c t, tags = a ++ (i, 1) :: (c, 2) :: t -> zlen (of_depth 2 a) < nth 2 (page_sizes (snd (window_of opts))) 0 ->
  forall o l depth enc ns bytes n, newVtdNav (s_rootIndex s) o l depth enc ns bytes (s_vtd s) (s_l1 s) (s_l2 s) (s_l3 s) = Ok n -> 3 <= depth ->
  0 <= further a ((c, 2) :: t) /\
  exists n2, visit n (DirFirstChild :: path (length (of_depth 1 a)) ++ [DirFirstChild]) = Some (n2, s_rootIndex s :: of_depth 1 a ++ [i; c]) /\
    at2 n2 i (zlen (of_depth 2 a)) (zlen (of_depth 2 a)) (zlen (of_depth 2 a) + further a ((c, 2) :: t)) /\ n_l2 n2 = s_l2 s /\ zlen (n_ctx n2) = depth.
Proof.
  intros (Root & Lt & Bt & (e1 & R1 & P1) & (e2 & R2 & P2)) B.
  intros K a i c0 t Et K2 o l depth enc ns bytes n N D. set (t' := (c0, 2) :: t) in *.
  assert (TT : forall k, map entry_token (level k 0 tags) = of_depth k tags) by (intros k; apply level_tokens; [intros e He; specialize (Bt e He); lia | lia..]).
  pose proof (TT 1) as T.
  assert (V : views (s_l1 s) (level 1 0 tags)) by (apply (views_of_repr e1); [exact R1 | rewrite level_count; lia | rewrite level_count; pose proof (of_depth_length 1 tags); lia]).
  assert (Bi : forall j d, In (j, d) tags -> 0 <= j < 2^28) by (intros j d Hj; specialize (Bt _ Hj); cbn [fst] in Bt; lia).
  assert (O : of_depth 1 tags = of_depth 1 a ++ i :: of_depth 1 t') by (rewrite Et, of_depth_app; reflexivity).
  destruct (nav_start _ _ _ _ _ _ _ _ _ _ _ _ _ N ltac:(lia) V) as (n0 & M0 & C0 & A0 & L2 & LC).
  destruct (visit_to n0 _ (length (of_depth 1 a)) A0) as (n1 & V1 & A1 & B1 & LC1).
  { rewrite <- (map_length entry_token (level 1 0 tags)), T, O, app_length. cbn [length]. lia. }
  assert (VV : visit n (DirFirstChild :: path (length (of_depth 1 a))) = Some (n1, s_rootIndex s :: of_depth 1 a ++ [i])).
  { refine (eq_trans (visit_cons _ _ _ _ _ _ _ M0 C0 V1) _). do 3 f_equal. rewrite <- firstn_map, T, O. rewrite firstn_app, firstn_all2 by lia. replace (S (length (of_depth 1 a)) - length (of_depth 1 a))%nat with 1%nat by lia. reflexivity. }
  fold (zlen (of_depth 1 a)) in A1. assert (EL2 : n_l2 n1 = s_l2 s) by (rewrite (base_l2 _ _ B1); exact L2).
  assert (P9 : nth 2 (page_sizes (snd (window_of opts))) 0 <= 512).
  { unfold page_sizes, page_rows. cbn [find fst]. repeat match goal with |- context [if ?c then _ else _] => destruct c end; cbn; lia. }
  assert (BD : forall b r, tags = b ++ r -> 0 <= zlen (of_depth 2 b) < 2^30).
  { intros b r Eb. pose proof (zlen_nonneg (of_depth 2 b)). pose proof (of_depth_length 2 b). assert (zlen b <= zlen tags) by (rewrite Eb, zlen_app; pose proof (zlen_nonneg r); lia). lia. }
  assert (EN : forall b j r, tags = b ++ (j, 1) :: r -> exists w, znth (level 1 0 tags) (zlen (of_depth 1 b)) = Some w /\ entry_child w <> -1 /\ entry_token w = j /\
     entry_child w = match r with (_, d) :: _ => if d =? 2 then zlen (of_depth 2 b) else 65535 | [] => 65535 end).
  { intros b j r Eb. pose proof (level_at 1 b 0 j r) as LA. rewrite <- Eb in LA. change (0 + zlen (of_depth (1 + 1) b)) with (zlen (of_depth 2 b)) in LA. change (1 + 1) with 2 in LA.
    assert (Bj : 0 <= j < 2^28) by (apply (Bi j 1); rewrite Eb; apply in_or_app; right; left; reflexivity).
    pose proof (BD _ _ Eb) as Bb.
    eexists. split; [exact LA|]. destruct r as [|(j', d') r]; [rewrite child_leaf, token_leaf by exact Bj; lia|]. destruct (d' =? 2); [rewrite child_node, token_node by lia; lia | rewrite child_leaf, token_leaf by exact Bj; lia]. }
  destruct (EN a i t' Et) as (w & Ew & Nw & Tw & Cw). subst t'. change (2 =? 2) with true in Cw. cbv iota in Cw. set (t' := (c0, 2) :: t) in *.
  set (p := zlen (of_depth 2 a)) in *.
  (* the entry of the first child *)
  assert (O2 : of_depth 2 tags = of_depth 2 a ++ c0 :: of_depth 2 t) by (rewrite Et, of_depth_app; reflexivity).
  assert (Zc : znth (of_depth 2 tags) p = Some c0) by (rewrite O2; unfold p; apply znth_value_at; exists (of_depth 2 a), (of_depth 2 t); split; reflexivity).
  rewrite <- TT in Zc.
  assert (Rp : 0 <= p < zlen (level 2 0 tags)) by (pose proof (znth_range _ _ _ Zc) as RR; unfold zlen in RR |- *; rewrite map_length in RR; exact RR).
  destruct (proj2 (znth_some_iff (level 2 0 tags) p) Rp) as (v & Hv).
  assert (Tv : entry_token v = c0) by (pose proof Hv as Hv'; apply znth_value_at in Hv'; apply (value_at_map entry_token) in Hv'; apply znth_value_at in Hv'; congruence).
  assert (Rv : longAt (n_l2 n1) (entry_child w) = Ok v) by (rewrite EL2, Cw; apply (bat_read _ _ _ _ _ _ R2); split; [apply znth_value_at; exact Hv | rewrite P2; exact K2]).
  (* the upper bound *)
  assert (UB : upperBound (n_l1 n1) (zlen (of_depth 1 a) + 1) (wrap32 (b_size (n_l2 n1) - 1)) = Ok (p + further a t') /\ 0 <= further a t').
  { pose proof (until_app t') as UA. pose proof (until_none t') as UN. pose proof (until_hd t') as UH. unfold further, reach. fold p.
    assert (U0 : 1 <= zlen (of_depth 2 (fst (until_next t')))).
    { unfold t'. cbn [until_next]. change (2 =? 1) with false. cbv iota. destruct (until_next t) as (u0, v0). cbn [fst]. change (of_depth 2 ((c0, 2) :: u0)) with (c0 :: of_depth 2 u0). rewrite zlen_cons. pose proof (zlen_nonneg (of_depth 2 u0)). lia. }
    destruct (until_next t') as (u, v') eqn:Eu. cbn [fst snd] in *.
    pose proof (a1_views _ _ _ A1) as V1'.
    assert (OC : of_depth 1 (a ++ (i, 1) :: u) = of_depth 1 a ++ [i]) by (rewrite of_depth_app; f_equal; change (of_depth 1 ((i, 1) :: u)) with (i :: of_depth 1 u); rewrite UN; reflexivity).
    assert (O3 : zlen (of_depth 2 (a ++ (i, 1) :: u)) = p + zlen (of_depth 2 u)) by (rewrite of_depth_app, zlen_app; reflexivity).
    assert (Ev : tags = (a ++ (i, 1) :: u) ++ v') by (rewrite Et, UA, <- app_assoc; reflexivity).
    assert (NX : zlen (of_depth 1 a) + 1 = zlen (of_depth 1 (a ++ (i, 1) :: u))) by (rewrite OC, zlen_app; reflexivity).
    pose proof (BD _ _ Ev) as Bu. rewrite O3 in Bu.
    destruct v' as [|(j, d) v'].
    - rewrite app_nil_r in Ev. split; [|lia]. rewrite EL2, (rp_size _ _ _ R2), level_count. assert (E2 : zlen (of_depth 2 tags) = p + zlen (of_depth 2 u)) by (rewrite Ev; exact O3). rewrite E2.
      rewrite (ub_end _ _ _ _ V1') by (rewrite level_count, NX, Ev; reflexivity). f_equal. rewrite wrap32_id by lia. lia.
    - subst d. destruct (EN _ _ _ Ev) as (w' & Ew' & Nw' & _ & Cw'). rewrite <- NX in Ew'. pose proof (ub_next _ _ _ _ (wrap32 (b_size (n_l2 n1) - 1)) V1' Ew' Nw') as U. rewrite Cw' in U.
      assert (FAR : upperBound (n_l1 n1) (zlen (of_depth 1 a) + 1) (wrap32 (b_size (n_l2 n1) - 1)) = Ok (wrap32 (65535 - 1)) ->
         upperBound (n_l1 n1) (zlen (of_depth 1 a) + 1) (wrap32 (b_size (n_l2 n1) - 1)) = Ok (p + (65534 - p)) /\ 0 <= 65534 - p).
      { intros U'. rewrite U', (wrap32_id (65535 - 1)) by lia. split; [f_equal; lia | lia]. }
      destruct v' as [|(j', d') v']; [exact (FAR U)|]. destruct (Z.eq_dec d' 2) as [->|N2].
      + change (2 =? 2) with true in U. cbv iota in U. rewrite U, O3. split; [|lia]. f_equal. rewrite wrap32_id by lia. lia.
      + replace (d' =? 2) with false in U by lia. destruct d' as [|[q|[q|q|]|]|q]; first [exact (FAR U) | lia]. }
  destruct UB as (UB & F0). split; [exact F0|].
  destruct (child1_state n1 _ _ w v _ A1 Ew Nw ltac:(rewrite LC1, LC; lia) Rv UB) as (n2 & M2 & C2 & S2 & S2' & _ & S2''). rewrite Tw, Cw in S2. rewrite Tv in C2.
  assert (V2 : visit n1 [DirFirstChild] = Some (n2, [c0])) by (cbn [visit]; rewrite M2, C2; reflexivity).
  pose proof (visit_app _ _ _ _ _ _ _ VV V2) as V3. change ((DirFirstChild :: path (length (of_depth 1 a))) ++ [DirFirstChild]) with (DirFirstChild :: path (length (of_depth 1 a)) ++ [DirFirstChild]) in V3.
  replace ((s_rootIndex s :: of_depth 1 a ++ [i]) ++ [c0]) with (s_rootIndex s :: of_depth 1 a ++ [i; c0]) in V3 by (cbn [app]; rewrite <- app_assoc; reflexivity).
  exists n2. split; [exact V3|]. split; [exact S2|]. split; congruence.
Qed.
Lemma siblings_core opts s N0 tags : cached opts s N0 tags -> N0 < 2^28 -> siblings_found opts s tags.
Proof.
  intros C B. unfold siblings_found. intros K a i c0 t Et K2 o l depth enc ns bytes n N D. cbv zeta.
  destruct (second_level _ _ _ _ C B K a i c0 t Et K2 _ _ _ _ _ _ _ N D) as (F0 & n2 & V3 & S2 & _). split; [exact F0|].
  split; [exists n2, (s_rootIndex s); split; [exact V3 | exact (sib2_first _ _ _ _ S2)]|].
  intros k Hk. destruct (sibs2 k n2 _ _ _ _ S2 ltac:(lia)) as (n3 & V4 & S4). exists n3, (s_rootIndex s). split.
  - refine (eq_trans (visit_app _ _ _ _ _ _ _ V3 V4) _). do 2 f_equal. cbn [app]. f_equal. rewrite <- app_assoc. reflexivity.
  - intros Ek. apply (sib2_end _ _ _ _ _ S4). lia.
Qed.

(** ** C111: NextSibling on the second level *)
Theorem C111_second_level_siblings : forall opts s, Forall go_value opts -> shallow_of opts = false -> runParser opts = Parsed s -> b_size (s_vtd s) < 2^28 ->
  exists w, exports s w /\
    let tags := start_tags 0 (read_tokens w) in
    zlen (of_depth 1 tags) <= nth 1 (page_sizes (snd (window_of opts))) 0 ->
    forall a i c t, tags = a ++ (i, 1) :: (c, 2) :: t -> zlen (of_depth 2 a) < nth 2 (page_sizes (snd (window_of opts))) 0 ->
    forall o l depth enc ns bytes n, newVtdNav (s_rootIndex s) o l depth enc ns bytes (s_vtd s) (s_l1 s) (s_l2 s) (s_l3 s) = Ok n -> 3 <= depth ->
    let here := DirFirstChild :: path (length (of_depth 1 a)) ++ [DirFirstChild] in
    0 <= further a ((c, 2) :: t) /\
    (exists n1 r, visit n here = Some (n1, r :: of_depth 1 a ++ [i; c]) /\ toElement n1 DirPrevSibling = (n1, Ok false)) /\
    forall k, Z.of_nat k <= further a ((c, 2) :: t) ->
      exists n2 r, visit n (here ++ repeat DirNextSibling k) = Some (n2, r :: of_depth 1 a ++ [i; c] ++ repeat i k) /\
        (Z.of_nat k = further a ((c, 2) :: t) -> toElement n2 DirNextSibling = (n2, Ok false)).
Proof.
  intros opts s F Sh E B. destruct (parsed_cached opts s F Sh E B) as (w & X & C). exists w. split; [exact X|]. exact (siblings_core _ _ _ _ C B).
Qed.
Print Assumptions C111_second_level_siblings.

(** An only child has a "next sibling", again and again, and the cursor is then on its
    parent; from a child with a sibling it goes to the parent too. *)
Definition nested : string := "<a><e><f/></e><b/><c><d/><g/></c></a>".
(** tokens: document 0, a 1, e 2, f 3, b 4, c 5, d 6, g 7 *)
Theorem C111_siblings_refuted : exists t,
  tokens_visited t (DirFirstChild :: path 0 ++ DirFirstChild :: repeat DirNextSibling 4) = Some [1; 2; 3; 2; 2; 2; 2] /\
  tokens_visited t (DirFirstChild :: path 2 ++ DirFirstChild :: repeat DirNextSibling 1) = Some [1; 2; 4; 5; 6; 5] /\
  tokens_visited t (DirFirstChild :: path 2 ++ DirFirstChild :: repeat DirNextSibling 2) = None.
Proof. exists nested. repeat split; vm_compute; reflexivity. Qed.
Print Assumptions C111_siblings_refuted.
Example C111_example : further [(1, 0)] [(3, 2); (4, 1); (5, 1); (6, 2); (7, 2)] = 65534 /\ further [(1, 0); (2, 1); (3, 2); (4, 1)] [(6, 2); (7, 2)] = 1 /\
  match runParser [OXmlDoc (Some (bytes_of nested)); OLcDepth 5] with
  | Parsed s => match toArray (s_vtd s) with Some (Ok w) => start_tags 0 (read_tokens w) = [(1, 0); (2, 1); (3, 2); (4, 1); (5, 1); (6, 2); (7, 2)] | _ => False end
  | _ => False
  end.
Proof. split; [reflexivity|]. split; [reflexivity|]. vm_compute. reflexivity. Qed.

(** ** C112: FirstChild and LastChild on the second level *)
Lemma level_child k : forall tags seen w, (forall e, In e tags -> 0 <= fst e < 2^28) -> 0 <= seen -> seen + zlen tags < 2^31 -> In w (level k seen tags) -> 0 <= entry_child w.
Proof.
  induction tags as [|(i, d) t IH]; intros seen w B S L H; [destruct H|]. rewrite zlen_cons in L. cbn [level] in H. pose proof (zlen_nonneg t).
  assert (Bi : 0 <= i < 2^28) by (apply (B (i, d)); left; reflexivity). assert (Bt : forall e, In e t -> 0 <= fst e < 2^28) by (intros e He; apply B; right; exact He).
  destruct (d =? k).
  - destruct H as [<-|H]; [|apply (IH seen w Bt S ltac:(lia) H)]. destruct t as [|(i', d') t]; [rewrite child_leaf by exact Bi; lia|]. destruct (d' =? k + 1); [rewrite child_node by lia; lia | rewrite child_leaf by exact Bi; lia].
  - destruct (d =? k + 1); [apply (IH (seen + 1) w Bt ltac:(lia) ltac:(lia) H) | apply (IH seen w Bt S ltac:(lia) H)].
Qed.
Lemma child2 f n p lo c up v : at2 n p lo c up -> longAt (n_l2 n) c = Ok v -> entry_child v <> -1 -> 3 < zlen (n_ctx n) ->
  match upperBound (n_l2 n) (c + 1) (wrap32 (b_size (n_l3 n) - 1)) with
  | Ok _ => exists n', toChildElement n f = (n', Ok true) /\ getCurrentIndex n' = Ok (entry_token v)
  | _ => snd (toChildElement n f) <> Ok true
  end.
Proof.
  intros K EV L R. unfold toChildElement. rewrite (a2_term _ _ _ _ _ K). unfold ctxAt. rewrite (a2_ctx _ _ _ _ _ K).
  cbn [mtry]. change (2 =? -1) with false. change (2 =? 0) with false. change (2 =? 1) with false. change (2 =? 2) with true. cbn iota.
  assert (U : upper32At (n_l2 n) c = Ok (entry_token v)) by (unfold upper32At; rewrite EV, upper32_entry; reflexivity).
  assert (U' : lower32At (n_l2 n) c = Ok (entry_child v)) by (unfold lower32At; rewrite EV, lower32_entry; reflexivity).
  rewrite (a2_i _ _ _ _ _ K), U'. cbn [mtry]. cbv zeta. destruct (entry_child v =? -1) eqn:EL; [lia|].
  rewrite ctxSet_ok by (cbn [w_l3lo n_ctx]; lia). cbn [mtry]. navsimp. rewrite (a2_i _ _ _ _ _ K).
  destruct (upperBound (n_l2 n) (c + 1) (wrap32 (b_size (n_l3 n) - 1))) as [u|e|q]; [|discriminate..]. cbn [mtry]. navsimp. rewrite U. cbn [mtryNil].
  rewrite ctxSet_ok by (navsimp; rewrite ?zlen_upd; lia). cbn [mtry]. eexists. split; [reflexivity|].
  refine (proj1 (placed_spec (w_l3i (if f then entry_child v else u) (w_l3up u (w_l3lo (entry_child v) n))) 3 (entry_token v) (a2_term _ _ _ _ _ K) ltac:(navsimp; lia))).
Qed.

Definition third_level (opts : list popt) (s : pst) (tags : list (Z * Z)) : Prop :=
  let page := nth 2 (page_sizes (snd (window_of opts))) 0 in
  zlen (of_depth 1 tags) <= nth 1 (page_sizes (snd (window_of opts))) 0 ->
  forall a i c t, tags = a ++ (i, 1) :: (c, 2) :: t -> zlen (of_depth 2 a) < page ->
  forall o l depth enc ns bytes n, newVtdNav (s_rootIndex s) o l depth enc ns bytes (s_vtd s) (s_l1 s) (s_l2 s) (s_l3 s) = Ok n -> 4 <= depth ->
  exists n1 r, visit n (DirFirstChild :: path (length (of_depth 1 a)) ++ [DirFirstChild]) = Some (n1, r :: of_depth 1 a ++ [i; c]) /\
    forall f : bool, let dir := if f then DirFirstChild else DirLastChild in
    if (zlen (of_depth 2 tags) =? zlen (of_depth 2 a) + 1) || (zlen (of_depth 2 a) + 1 <? page)
    then exists n2, toElement n1 dir = (n2, Ok true) /\ getCurrentIndex n2 = Ok c
    else snd (toElement n1 dir) <> Ok true.
Lemma third_core opts s N0 tags : cached opts s N0 tags -> N0 < 2^28 -> third_level opts s tags.
Proof.
  intros C B. unfold third_level. cbv zeta. intros K a i c t Et K2 o l depth enc ns bytes n N D.
  destruct (second_level _ _ _ _ C B K a i c t Et K2 _ _ _ _ _ _ _ N ltac:(lia)) as (_ & n1 & V & S & L2 & LC).
  exists n1, (s_rootIndex s). split; [exact V|]. intros f. change (toElement n1 (if f then DirFirstChild else DirLastChild)) with (toElement n1 (chd f)). rewrite to_chd.
  destruct C as (Root & Lt & Bt & _ & (e2 & R2 & P2)).
  assert (Bt' : forall e, In e tags -> 0 <= fst e < 2^28) by (intros e He; specialize (Bt e He); lia).
  assert (T : map entry_token (level 2 0 tags) = of_depth 2 tags) by (apply level_tokens; [exact Bt' | lia..]).
  assert (LCH : forall j w, znth (level 2 0 tags) j = Some w -> 0 <= entry_child w).
  { intros j w Hw. apply (level_child 2 tags 0 w Bt' ltac:(lia) ltac:(lia)). apply znth_value_at in Hw. destruct Hw as (x & y & -> & _). apply in_or_app. right. left. reflexivity. }
  set (p := zlen (of_depth 2 a)) in *. pose proof (level_count 2 tags 0) as CT.
  assert (O2 : of_depth 2 tags = of_depth 2 a ++ c :: of_depth 2 t) by (rewrite Et, of_depth_app; reflexivity).
  assert (Sz : p + 1 <= zlen (of_depth 2 tags)) by (rewrite O2, zlen_app, zlen_cons; pose proof (zlen_nonneg (of_depth 2 t)); fold p; lia).
  assert (Zc : znth (of_depth 2 tags) p = Some c) by (rewrite O2; unfold p; apply znth_value_at; exists (of_depth 2 a), (of_depth 2 t); split; reflexivity).
  assert (Rp : 0 <= p) by apply zlen_nonneg.
  destruct (proj2 (znth_some_iff (level 2 0 tags) p) ltac:(lia)) as (v & Hv).
  assert (Tv : entry_token v = c) by (rewrite <- T in Zc; pose proof Hv as Hv'; apply znth_value_at in Hv'; apply (value_at_map entry_token) in Hv'; apply znth_value_at in Hv'; congruence).
  assert (Rv : longAt (n_l2 n1) p = Ok v) by (rewrite L2; apply (bat_read _ _ _ _ _ _ R2); split; [apply znth_value_at; exact Hv | rewrite P2; exact K2]).
  pose proof (child2 f n1 _ _ _ _ v S Rv ltac:(specialize (LCH _ _ Hv); lia) ltac:(rewrite LC; lia)) as M. rewrite Tv in M.
  rewrite L2 in M. unfold upperBound in M. rewrite (rp_size _ _ _ R2), CT in M.
  destruct (Z.eqb_spec (zlen (of_depth 2 tags)) (p + 1)) as [E|NE]; cbn [orb].
  - rewrite E, Z.sub_diag in M. exact M.
  - destruct (Z.to_nat (zlen (of_depth 2 tags) - (p + 1))) as [|k] eqn:Ek; [lia|]. cbn [upperBoundLoop] in M.
    destruct (p + 1 <? _) eqn:EP.
    + destruct (proj2 (znth_some_iff (level 2 0 tags) (p + 1)) ltac:(lia)) as (v' & Hv'). pose proof (LCH _ _ Hv') as G.
      assert (Rv' : longAt (s_l2 s) (p + 1) = Ok v') by (apply (bat_read _ _ _ _ _ _ R2); split; [apply znth_value_at; exact Hv' | lia]).
      unfold lower32At in M. rewrite Rv' in M. cbn [obind] in M. rewrite lower32_entry, entry_u32 in M. replace (entry_child v' =? -1) with false in M by lia. exact M.
    + unfold lower32At in M. destruct (longAt (s_l2 s) (p + 1)) as [v'|?|?] eqn:Ev'; [|exact M..]. apply (bat_read _ _ _ _ _ _ R2) in Ev'. lia.
Qed.

Theorem C112_second_level_children : forall opts s, Forall go_value opts -> shallow_of opts = false -> runParser opts = Parsed s -> b_size (s_vtd s) < 2^28 ->
  exists w, exports s w /\
    let tags := start_tags 0 (read_tokens w) in
    let page := nth 2 (page_sizes (snd (window_of opts))) 0 in
    zlen (of_depth 1 tags) <= nth 1 (page_sizes (snd (window_of opts))) 0 ->
    forall a i c t, tags = a ++ (i, 1) :: (c, 2) :: t -> zlen (of_depth 2 a) < page ->
    forall o l depth enc ns bytes n, newVtdNav (s_rootIndex s) o l depth enc ns bytes (s_vtd s) (s_l1 s) (s_l2 s) (s_l3 s) = Ok n -> 4 <= depth ->
    exists n1 r, visit n (DirFirstChild :: path (length (of_depth 1 a)) ++ [DirFirstChild]) = Some (n1, r :: of_depth 1 a ++ [i; c]) /\
      forall f : bool, let dir := if f then DirFirstChild else DirLastChild in
      if (zlen (of_depth 2 tags) =? zlen (of_depth 2 a) + 1) || (zlen (of_depth 2 a) + 1 <? page)
      then exists n2, toElement n1 dir = (n2, Ok true) /\ getCurrentIndex n2 = Ok c
      else snd (toElement n1 dir) <> Ok true.
Proof.
  intros opts s F Sh E B. destruct (parsed_cached opts s F Sh E B) as (w & X & C). exists w. split; [exact X|]. exact (third_core _ _ _ _ C B).
Qed.
Print Assumptions C112_second_level_children.
(** f has the child x (token 4) and d (token 6) has none. *)
Theorem C112_children_refuted : exists t,
  tokens_visited t (DirFirstChild :: path 0 ++ [DirFirstChild; DirFirstChild]) = Some [1; 2; 3; 3] /\
  tokens_visited t (DirFirstChild :: path 1 ++ [DirFirstChild; DirLastChild]) = Some [1; 2; 5; 6; 6].
Proof. exists "<a><e><f><x/></f></e><c><d/></c></a>"%string. split; vm_compute; reflexivity. Qed.
Print Assumptions C112_children_refuted.
Example C112_example :
  match runParser [OXmlDoc (Some (bytes_of "<a><e><f><x/></f></e><c><d/></c></a>")); OLcDepth 5] with
  | Parsed s => match toArray (s_vtd s) with Some (Ok w) => start_tags 0 (read_tokens w) = [(1, 0); (2, 1); (3, 2); (4, 3); (5, 1); (6, 2)] | _ => False end
  | _ => False
  end.
Proof. vm_compute. reflexivity. Qed.
