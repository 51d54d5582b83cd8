(** LastChild on an element of the first level, over the tables of the parser: which
    element the move goes to is decided by the next element of the first level alone. *)
From Verif Require Import Lib XmlChar Buffer BufferProofs SpecBuffer Reader ParserState ParserPrim ParserProc ParserMain Output SpecOutput SpecParse ParserWp ParserOutcome ParserFrame
  SpecToken SpecNav Nav NavCacheProofs NavMoveProofs SpecDoc SpecLoc DocBase DocLoc NavParsed PropertiesParse PropertiesQuirks PropertiesDoc PropertiesPages PropertiesTree PropertiesOutput ParserLog ParserTree ParserCount PropertiesCache PropertiesRead.

(** ** The move *)
Lemma ub_next b ws i w d : views b ws -> znth ws i = Some w -> entry_child w <> -1 -> upperBound b i d = Ok (wrap32 (entry_child w - 1)).
Proof.
  intros V E N. pose proof (znth_range _ _ _ E) as R. destruct (upperBoundLoop_spec b ws d V _ i ltac:(lia) eq_refl) as (up & U & H).
  unfold upperBound. replace (b_size b) with (zlen ws) by (destruct V as (-> & _ & _); reflexivity). rewrite U. f_equal.
  destruct H as [(j & v & Hj & Ej & Nj & -> & F) | (_ & F)]; [|destruct (N (F i w ltac:(lia) E))].
  destruct (Z.eq_dec i j) as [<-|D]; [congruence|]. destruct (N (F i w ltac:(lia) E)).
Qed.
Lemma ub_end b ws i d : views b ws -> i = zlen ws -> upperBound b i d = Ok d.
Proof. intros (S & _ & _) ->. unfold upperBound. rewrite S, Z.sub_diag. reflexivity. Qed.

Lemma child1_last n ws i w up : at1 n ws i -> znth ws i = Some w -> entry_child w <> -1 -> 2 < zlen (n_ctx n) ->
  upperBound (n_l1 n) (i + 1) (wrap32 (b_size (n_l2 n) - 1)) = Ok up ->
  match longAt (n_l2 n) up with
  | Ok v => exists n', toChildElement n false = (n', Ok true) /\ getCurrentIndex n' = Ok (entry_token v)
  | _ => snd (toChildElement n false) <> Ok true
  end.
Proof.
  intros K E L R UB'. pose proof (a1_views _ _ _ K) as H1. pose proof (a1_in _ _ _ K) as Ri.
  unfold toChildElement. rewrite (a1_term _ _ _ K). unfold ctxAt. rewrite (a1_ctx _ _ _ K).
  cbn [mtry]. change (1 =? -1) with false. change (1 =? 0) with false. change (1 =? 1) with true. cbn iota.
  rewrite (a1_i _ _ _ K), (view_lower _ _ _ _ H1 E). cbn [mtry]. cbv zeta.
  destruct (entry_child w =? -1) eqn:EL; [lia|].
  rewrite ctxSet_ok by (cbn [w_l2lo n_ctx]; lia). cbn [mtry]. navsimp. rewrite (a1_i _ _ _ K), UB'. cbn [mtry]. navsimp.
  unfold upper32At. destruct (longAt (n_l2 n) up) as [v|e|p]; [|discriminate..]. cbn [obind]. rewrite upper32_entry. cbn [mtryNil].
  rewrite ctxSet_ok by (navsimp; rewrite ?zlen_upd; lia). cbn [mtry]. eexists. split; [reflexivity|].
  refine (proj1 (placed_spec (w_l2i up (w_l2up up (w_l2lo (entry_child w) n))) 2 (entry_token v) (a1_term _ _ _ K) ltac:(navsimp; lia))).
Qed.

(** ** The specification *)
(** The start tags up to the next element of the first level, and the start tags from
    there on. *)
Fixpoint until_next (t : list (Z * Z)) : list (Z * Z) * list (Z * Z) :=
  match t with
  | [] => ([], [])
  | (i, d) :: t' => if d =? 1 then ([], t) else let (u, v) := until_next t' in ((i, d) :: u, v)
  end.
(** The elements of the second level out of which LastChild takes the last one, with
    the start tags [a] before the element and [t] after it; [None]: it takes none. *)
Definition reach (a t : list (Z * Z)) : option (list Z) :=
  match until_next t with
  | (u, []) => Some (of_depth 2 (a ++ u))
  | (u, _ :: (_, 2) :: _) => Some (of_depth 2 (a ++ u))
  | _ => None
  end.

Lemma until_app t : t = fst (until_next t) ++ snd (until_next t).
Proof. induction t as [|(i, d) t IH]; [reflexivity|]. cbn [until_next]. destruct (d =? 1); [reflexivity|]. destruct (until_next t) as (u, v). cbn [fst snd app] in *. congruence. Qed.
Lemma until_none t : of_depth 1 (fst (until_next t)) = [].
Proof. induction t as [|(i, d) t IH]; [reflexivity|]. cbn [until_next]. destruct (d =? 1) eqn:D; [reflexivity|]. destruct (until_next t) as (u, v). cbn [fst] in *. unfold of_depth in *. cbn [filter snd]. rewrite D. exact IH. Qed.
Lemma until_hd t : match snd (until_next t) with (_, d) :: _ => d = 1 | [] => True end.
Proof. induction t as [|(i, d) t IH]; [exact I|]. cbn [until_next]. destruct (d =? 1) eqn:D; [cbn [snd]; lia|]. destruct (until_next t) as (u, v). exact IH. Qed.

Definition last_child_found (opts : list popt) (s : pst) (tags : list (Z * Z)) : Prop :=
  zlen (of_depth 1 tags) <= nth 1 (page_sizes (snd (window_of opts))) 0 ->
  forall a i t, tags = a ++ (i, 1) :: t ->
  forall o l depth enc ns bytes n, newVtdNav (s_rootIndex s) o l depth enc ns bytes (s_vtd s) (s_l1 s) (s_l2 s) (s_l3 s) = Ok n -> 3 <= depth ->
  exists n1 r, visit n (DirFirstChild :: path (length (of_depth 1 a))) = Some (n1, r :: of_depth 1 a ++ [i]) /\
    match reach a t with
    | Some (x :: xs) => if zlen (x :: xs) <=? nth 2 (page_sizes (snd (window_of opts))) 0
                        then exists n2, toElement n1 DirLastChild = (n2, Ok true) /\ getCurrentIndex n2 = Ok (last (x :: xs) 0)
                        else snd (toElement n1 DirLastChild) <> Ok true
    | _ => snd (toElement n1 DirLastChild) <> Ok true
    end.

Lemma last_znth (l : list Z) x xs r : l = (x :: xs) ++ r -> znth l (zlen (x :: xs) - 1) = Some (last (x :: xs) 0).
Proof.
  intros ->. revert x. induction xs as [|y ys IH]; intros x; [apply znth_cons0|].
  change (last (x :: y :: ys) 0) with (last (y :: ys) 0). rewrite <- (IH y). rewrite !zlen_cons. change ((x :: y :: ys) ++ r) with (x :: ((y :: ys) ++ r)).
  pose proof (zlen_nonneg ys). rewrite znth_consS by lia. f_equal. lia.
Qed.

Lemma last_child_core opts s N0 tags : cached opts s N0 tags -> N0 < 2^28 -> last_child_found opts s tags.
Proof.
  intros (Root & Lt & Bt & (e1 & R1 & P1) & (e2 & R2 & P2)) B. unfold last_child_found.
  intros K a i t Et o l depth enc ns bytes n N D.
  assert (TT : forall k, map entry_token (level k 0 tags) = of_depth k tags) by (intros k; apply level_tokens; [intros e He; specialize (Bt e He); lia | lia..]).
  pose proof (TT 1) as T.
  assert (V : views (s_l1 s) (level 1 0 tags)) by (apply (views_of_repr e1); [exact R1 | rewrite level_count; lia | rewrite level_count; pose proof (of_depth_length 1 tags); lia]).
  assert (Bi : forall j d, In (j, d) tags -> 0 <= j < 2^28) by (intros j d Hj; specialize (Bt _ Hj); cbn [fst] in Bt; lia).
  assert (O : of_depth 1 tags = of_depth 1 a ++ i :: of_depth 1 t) by (rewrite Et, of_depth_app; reflexivity).
  destruct (nav_start _ _ _ _ _ _ _ _ _ _ _ _ _ N ltac:(lia) V) as (n0 & M0 & C0 & A0 & L2 & LC).
  destruct (visit_to n0 _ (length (of_depth 1 a)) A0) as (n1 & V1 & A1 & B1 & LC1).
  { rewrite <- (map_length entry_token (level 1 0 tags)), T, O, app_length. cbn [length]. lia. }
  exists n1, (s_rootIndex s). split.
  { refine (eq_trans (visit_cons _ _ _ _ _ _ _ M0 C0 V1) _). do 3 f_equal. rewrite <- firstn_map, T, O. rewrite firstn_app, firstn_all2 by lia. replace (S (length (of_depth 1 a)) - length (of_depth 1 a))%nat with 1%nat by lia. reflexivity. }
  fold (zlen (of_depth 1 a)) in A1. assert (EL2 : n_l2 n1 = s_l2 s) by (rewrite (base_l2 _ _ B1); exact L2).
  assert (P9 : nth 2 (page_sizes (snd (window_of opts))) 0 <= 512).
  { unfold page_sizes, page_rows. cbn [find fst]. repeat match goal with |- context [if ?c then _ else _] => destruct c end; cbn; lia. }
  (* the entries of the first level: a position of the second, or the leaf mark *)
  assert (EN : forall b j r, tags = b ++ (j, 1) :: r -> exists w, znth (level 1 0 tags) (zlen (of_depth 1 b)) = Some w /\ entry_child w <> -1 /\
     entry_child w = match r with (_, d) :: _ => if d =? 2 then zlen (of_depth 2 b) else 65535 | [] => 65535 end).
  { intros b j r Eb. pose proof (level_at 1 b 0 j r) as LA. rewrite <- Eb in LA. change (0 + zlen (of_depth (1 + 1) b)) with (zlen (of_depth 2 b)) in LA. change (1 + 1) with 2 in LA.
    assert (Bj : 0 <= j < 2^28) by (apply (Bi j 1); rewrite Eb; apply in_or_app; right; left; reflexivity).
    assert (Bb : 0 <= zlen (of_depth 2 b) < 2^31). { pose proof (zlen_nonneg (of_depth 2 b)). pose proof (of_depth_length 2 b). assert (zlen b <= zlen tags) by (rewrite Eb, zlen_app; pose proof (zlen_nonneg ((j, 1) :: r)); lia). lia. }
    eexists. split; [exact LA|]. destruct r as [|(j', d') r]; [rewrite child_leaf by exact Bj; lia|]. destruct (d' =? 2); [rewrite child_node by lia; lia | rewrite child_leaf by exact Bj; lia]. }
  destruct (EN a i t Et) as (w & Ew & Nw & _).
  assert (LAST : forall up, upperBound (n_l1 n1) (zlen (of_depth 1 a) + 1) (wrap32 (b_size (n_l2 n1) - 1)) = Ok up ->
     match longAt (s_l2 s) up with Ok v => exists n', toElement n1 DirLastChild = (n', Ok true) /\ getCurrentIndex n' = Ok (entry_token v) | _ => snd (toElement n1 DirLastChild) <> Ok true end).
  { intros up U. rewrite <- EL2. exact (child1_last n1 _ _ w up A1 Ew Nw ltac:(rewrite LC1, LC; lia) U). }
  assert (NOT : forall up, upperBound (n_l1 n1) (zlen (of_depth 1 a) + 1) (wrap32 (b_size (n_l2 n1) - 1)) = Ok up -> up < 0 \/ 2^e2 <= up -> snd (toElement n1 DirLastChild) <> Ok true).
  { intros up U X. specialize (LAST up U). destruct (longAt (s_l2 s) up) as [v|?|?] eqn:Ev; [|exact LAST..]. apply (bat_read _ _ _ _ _ _ R2) in Ev. destruct Ev as (Ev & Lv). apply value_at_bound in Ev. lia. }
  (* the last one of a first part of the second level *)
  assert (READ : forall part r, of_depth 2 tags = part ++ r -> upperBound (n_l1 n1) (zlen (of_depth 1 a) + 1) (wrap32 (b_size (n_l2 n1) - 1)) = Ok (wrap32 (zlen part - 1)) ->
     match part with
     | x :: xs => if zlen (x :: xs) <=? nth 2 (page_sizes (snd (window_of opts))) 0
                  then exists n2, toElement n1 DirLastChild = (n2, Ok true) /\ getCurrentIndex n2 = Ok (last (x :: xs) 0)
                  else snd (toElement n1 DirLastChild) <> Ok true
     | [] => snd (toElement n1 DirLastChild) <> Ok true
     end).
  { intros part r Ep U. assert (Bp : 0 <= zlen part < 2^30) by (pose proof (zlen_nonneg part); pose proof (of_depth_length 2 tags); rewrite Ep, zlen_app in *; pose proof (zlen_nonneg r); lia).
    rewrite (wrap32_id (zlen part - 1)) in U by lia. destruct part as [|x xs]; [apply (NOT _ U); left; rewrite zlen_nil; lia|].
    destruct (zlen (x :: xs) <=? _) eqn:EP; [|apply (NOT _ U); right; lia].
    pose proof (last_znth _ _ _ _ Ep) as Z. rewrite <- TT in Z.
    assert (R : 0 <= zlen (x :: xs) - 1 < zlen (level 2 0 tags)) by (pose proof (znth_range _ _ _ Z) as RR; unfold zlen in *; rewrite map_length in RR; lia).
    destruct (proj2 (znth_some_iff (level 2 0 tags) (zlen (x :: xs) - 1)) R) as (v & Hv).
    assert (Ev : longAt (s_l2 s) (zlen (x :: xs) - 1) = Ok v) by (apply (bat_read _ _ _ _ _ _ R2); split; [apply znth_value_at; exact Hv | lia]).
    specialize (LAST _ U). rewrite Ev in LAST. destruct LAST as (n2 & M & C). exists n2. split; [exact M|]. rewrite C. f_equal.
    apply znth_value_at in Hv. apply (value_at_map entry_token) in Hv. apply znth_value_at in Hv. congruence. }
  pose proof (until_app t) as UA. pose proof (until_none t) as UN. pose proof (until_hd t) as UH. unfold reach. destruct (until_next t) as (u, v) eqn:Eu. cbn [fst snd] in *.
  pose proof (a1_views _ _ _ A1) as V1'.
  assert (OC : of_depth 1 (a ++ (i, 1) :: u) = of_depth 1 a ++ [i]) by (rewrite of_depth_app; f_equal; change (of_depth 1 ((i, 1) :: u)) with (i :: of_depth 1 u); rewrite UN; reflexivity).
  assert (O2 : of_depth 2 (a ++ (i, 1) :: u) = of_depth 2 (a ++ u)) by (rewrite !of_depth_app; reflexivity).
  assert (Ev : tags = (a ++ (i, 1) :: u) ++ v) by (rewrite Et, UA, <- app_assoc; reflexivity).
  assert (NX : zlen (of_depth 1 a) + 1 = zlen (of_depth 1 (a ++ (i, 1) :: u))) by (rewrite OC, zlen_app; reflexivity).
  destruct v as [|(j, d) v].
  - rewrite app_nil_r in Ev. assert (E2 : of_depth 2 tags = of_depth 2 (a ++ u)) by (rewrite Ev; exact O2).
    refine (READ (of_depth 2 (a ++ u)) [] (eq_trans E2 (eq_sym (app_nil_r _))) _). rewrite EL2, (rp_size _ _ _ R2), level_count, E2.
    apply (ub_end _ _ _ _ V1'). rewrite level_count, NX, Ev. reflexivity.
  - subst d. destruct (EN _ _ _ Ev) as (w' & Ew' & Nw' & Cw'). rewrite <- NX in Ew'. pose proof (ub_next _ _ _ _ (wrap32 (b_size (n_l2 n1) - 1)) V1' Ew' Nw') as U. rewrite Cw' in U.
    assert (FAR : upperBound (n_l1 n1) (zlen (of_depth 1 a) + 1) (wrap32 (b_size (n_l2 n1) - 1)) = Ok (wrap32 (65535 - 1)) -> snd (toElement n1 DirLastChild) <> Ok true).
    { intros U'. apply (NOT _ U'). right. rewrite (wrap32_id (65535 - 1)) by lia. lia. }
    destruct v as [|(j', d') v]; [exact (FAR U)|]. destruct (Z.eq_dec d' 2) as [->|N2].
    + change (2 =? 2) with true in U. cbv iota in U. rewrite O2 in U. refine (READ _ (of_depth 2 ((j, 1) :: (j', 2) :: v)) _ U). rewrite Ev, of_depth_app, O2. reflexivity.
    + replace (d' =? 2) with false in U by lia. destruct d' as [|[p|[p|p|]|]|p]; first [exact (FAR U) | lia].
Qed.

(** ** C110: LastChild on an element of the first level *)
Theorem C110_last_child : forall opts s, Forall go_value opts -> shallow_of opts = false -> runParser opts = Parsed s -> b_size (s_vtd s) < 2^28 ->
  exists w, exports s w /\
    let tags := start_tags 0 (read_tokens w) in
    zlen (of_depth 1 tags) <= nth 1 (page_sizes (snd (window_of opts))) 0 ->
    forall a i t, tags = a ++ (i, 1) :: t ->
    forall o l depth enc ns bytes n, newVtdNav (s_rootIndex s) o l depth enc ns bytes (s_vtd s) (s_l1 s) (s_l2 s) (s_l3 s) = Ok n -> 3 <= depth ->
    exists n1 r, visit n (DirFirstChild :: path (length (of_depth 1 a))) = Some (n1, r :: of_depth 1 a ++ [i]) /\
      match reach a t with
      | Some (x :: xs) => if zlen (x :: xs) <=? nth 2 (page_sizes (snd (window_of opts))) 0
                          then exists n2, toElement n1 DirLastChild = (n2, Ok true) /\ getCurrentIndex n2 = Ok (last (x :: xs) 0)
                          else snd (toElement n1 DirLastChild) <> Ok true
      | _ => snd (toElement n1 DirLastChild) <> Ok true
      end.
Proof.
  intros opts s F Sh E B. destruct (parsed_cached opts s F Sh E B) as (w & X & C). exists w. split; [exact X|]. exact (last_child_core _ _ _ _ C B).
Qed.
Print Assumptions C110_last_child.

(** The element found: the last of the own children where there are some, the last
    element of the second level before the element where there are none. *)
Theorem C110_whose_child : forall a t part, reach a t = Some part ->
  last part 0 = match of_depth 2 (fst (until_next t)) with [] => last (of_depth 2 a) 0 | own => last own 0 end.
Proof.
  intros a t part. unfold reach. destruct (until_next t) as (u, v). cbn [fst].
  assert (H : last (of_depth 2 (a ++ u)) 0 = match of_depth 2 u with [] => last (of_depth 2 a) 0 | own => last own 0 end).
  { rewrite of_depth_app. destruct (of_depth 2 u) as [|y ys]; [rewrite app_nil_r; reflexivity|]. generalize (of_depth 2 a). intros l. induction l as [|z l IH]; [reflexivity|].
    cbn [app]. rewrite <- IH. destruct l; reflexivity. }
  intros E. rewrite <- H. destruct v as [|e [|(j, d) v]]; [injection E as <-; reflexivity | discriminate E|]. destruct d as [|[p|[p|p|]|]|p]; first [discriminate E | injection E as <-; reflexivity].
Qed.
Print Assumptions C110_whose_child.
(** An element with children where the next element of the first level has none: they
    are not found. An element without children where the next one has some, or there is
    no next one: a child of an earlier element is found. *)
Theorem C110_last_child_refuted : exists t n n1 n2 n3 n4, nav_over t = Some n /\
  visit n (DirFirstChild :: path 0) = Some (n1, [1; 2]) /\ toElement n1 DirLastChild = (n2, Ok false) /\
  snd (toElement n1 DirFirstChild) = Ok true /\
  visit n (DirFirstChild :: path 1) = Some (n3, [1; 2; 4]) /\ snd (toElement n3 DirFirstChild) <> Ok true /\
  toElement n3 DirLastChild = (n4, Ok true) /\ getCurrentIndex n4 = Ok 3.
Proof.
  exists three. do 5 eexists. split; [vm_compute; reflexivity|]. split; [vm_compute; reflexivity|]. split; [vm_compute; reflexivity|]. split; [vm_compute; reflexivity|].
  split; [vm_compute; reflexivity|]. split; [vm_compute; discriminate|]. split; vm_compute; reflexivity.
Qed.
Print Assumptions C110_last_child_refuted.

(** "three" has the start tags a 1, e 2, f 3, b 4, c 5, d 6. *)
Definition three_tags : list (Z * Z) := [(1, 0); (2, 1); (3, 2); (4, 1); (5, 1); (6, 2)].
Example C110_reach : reach [(1, 0)] [(3, 2); (4, 1); (5, 1); (6, 2)] = None /\
  reach [(1, 0); (2, 1); (3, 2)] [(5, 1); (6, 2)] = Some [3] /\ reach [(1, 0); (2, 1); (3, 2); (4, 1)] [(6, 2)] = Some [3; 6].
Proof. repeat split. Qed.
Example C110_example :
  match runParser [OXmlDoc (Some (bytes_of three)); OLcDepth 5] with
  | Parsed s => match toArray (s_vtd s) with Some (Ok w) => start_tags 0 (read_tokens w) = three_tags | _ => False end
  | _ => False
  end /\
  tokens_visited three (DirFirstChild :: path 1 ++ [DirLastChild]) = Some [1; 2; 4; 3] /\
  tokens_visited three (DirFirstChild :: path 2 ++ [DirLastChild]) = Some [1; 2; 4; 5; 6].
Proof. split; [vm_compute; reflexivity | split; vm_compute; reflexivity]. Qed.
