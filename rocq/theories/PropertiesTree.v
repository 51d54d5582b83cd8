(** Properties of navigators built over the tables a parser made. *)
From Verif Require Import Lib XmlChar Buffer BufferProofs SpecBuffer Reader ParserState ParserPrim ParserProc ParserMain SpecParse ParserWp ParserOutcome ParserFrame
  SpecToken SpecNav Nav NavMoveProofs NavCacheProofs SpecDoc SpecWindow SpecLoc DocBase DocLoc DocMain DocCut NavParsed PropertiesParse PropertiesQuirks PropertiesDoc PropertiesPages.

Lemma parsed_tree_of opts doc rest off s d : scans opts doc rest off -> shallow_of opts = false -> runParser opts = Parsed s ->
  zlen doc < 2^31 -> wf d -> shows d (window doc off) rest -> result opts off (zlen doc - off) d s ->
    let tags := start_tags 0 (tokens off d) in
    hd_error tags = Some (s_rootIndex s, 0) /\ zlen tags <= zlen doc /\ (forall e, In e tags -> 0 <= fst e < zlen doc) /\
    (exists e, repr e (s_l1 s) (level 1 0 tags) /\ 2^e = nth 1 (page_sizes (snd (window_of opts))) 0) /\
    (exists e, repr e (s_l2 s) (level 2 0 tags) /\ 2^e = nth 2 (page_sizes (snd (window_of opts))) 0).
Proof.
  intros R Sh E L W Ed (H & HL & _). pose proof R as (G & _ & Ho & _). rewrite Sh in HL. pose proof (document_tree off d W) as T.
  pose proof (tokens_count off d W) as C. destruct (window_length _ _ _ _ _ R Ed) as (C1 & C2).
  pose proof (start_tags_length (tokens off d) 0) as SL. destruct (final_levels (tokens off d) T ltac:(lia)) as (Q0 & Q1 & Q2 & _).
  destruct HL as (L0 & _ & _ & _ & _ & _ & (e1 & H1) & (e2 & H2) & _). rewrite Q0 in L0. rewrite Q1 in H1. rewrite Q2 in H2.
  assert (HB : forall e, In e (start_tags 0 (tokens off d)) -> 0 <= fst e < zlen (tokens off d)) by (intros e He; apply start_tags_in in He; lia).
  set (tags := start_tags 0 (tokens off d)) in *. cbv zeta.
  split. { pose proof (document_root off d W) as N. fold tags in N. rewrite L0. destruct tags as [|(i, e) r]; [contradiction|]. destruct T as (-> & _). reflexivity. }
  split; [lia|]. split; [intros e He; specialize (HB e He); lia|].
  destruct (ends_bufs opts s G (or_introl E)) as (_ & cf & X & Lx & S). rewrite S, Sh, Lx in X. rewrite <- vtd_rows. cbn [nth]. injection X as X0 X1 X2 X3 X4 X5.
  split; [exists e1 | exists e2]; (split; [assumption|]); f_equal; [exact (eq_trans (eq_sym (rp_exp _ _ _ H1)) X1) | exact (eq_trans (eq_sym (rp_exp _ _ _ H2)) X2)].
Qed.
Lemma parsed_tree opts doc rest off s : scans opts doc rest off -> shallow_of opts = false -> runParser opts = Parsed s ->
  exists d, wf d /\ shows d (window doc off) rest /\ exports s (map word (tokens off d)) /\
    let tags := start_tags 0 (tokens off d) in
    hd_error tags = Some (s_rootIndex s, 0) /\ zlen tags <= zlen doc /\ (forall e, In e tags -> 0 <= fst e < zlen doc) /\
    (exists e, repr e (s_l1 s) (level 1 0 tags) /\ 2^e = nth 1 (page_sizes (snd (window_of opts))) 0) /\
    (exists e, repr e (s_l2 s) (level 2 0 tags) /\ 2^e = nth 2 (page_sizes (snd (window_of opts))) 0).
Proof.
  intros R Sh E. destruct (accepted _ _ _ _ _ R E) as (L & d & W & Ed & H). exists d. split; [exact W|]. split; [exact Ed|]. split; [apply H|].
  exact (parsed_tree_of _ _ _ _ _ _ R Sh E L W Ed H).
Qed.

Lemma nav_start root o l depth enc ns bytes vtd l1 l2 l3 n ws : newVtdNav root o l depth enc ns bytes vtd l1 l2 l3 = Ok n -> 2 <= depth -> views l1 ws ->
  exists n1, toElement n DirFirstChild = (n1, Ok true) /\ getCurrentIndex n1 = Ok root /\ at0 n1 ws /\ n_l2 n1 = l2 /\ zlen (n_ctx n1) = depth.
Proof.
  intros N D V. unfold newVtdNav in N. destruct (depth <? 0) eqn:Ed; [discriminate N|]. destruct (newUniByteBuffer bytes) as [xml|e|w]; [|discriminate N..]. cbn [obind] in N. injection N as <-.
  assert (Lc : zlen (repeat (-1) (Z.to_nat depth)) = depth) by (unfold zlen; rewrite repeat_length; lia).
  assert (E0 : znth (repeat (-1) (Z.to_nat depth)) 0 = Some (-1)) by (destruct (Z.to_nat depth) as [|k] eqn:Ek; [lia | reflexivity]).
  change (toElement ?m DirFirstChild) with (toChildElement m true). unfold toChildElement. cbn [n_term]. unfold ctxAt at 1. cbn [n_ctx]. rewrite E0. cbn [mtry]. change (-1 =? -1) with true. cbv iota.
  rewrite ctxSet_ok by (cbn [n_ctx]; lia). cbn [mtry n_ctx]. eexists. split; [reflexivity|]. navsimp.
  assert (E1 : znth (upd (repeat (-1) (Z.to_nat depth)) (Z.to_nat 0) 0) 0 = Some 0) by (apply znth_upd_same; lia).
  split; [unfold getCurrentIndex, ctxAt; navsimp; rewrite E1; reflexivity|].
  split; [constructor; navsimp; rewrite ?zlen_upd; first [assumption | reflexivity | lia]|]. split; [reflexivity | rewrite zlen_upd; exact Lc].
Qed.

(** What is used of the tables: [N] bounds the number of tokens. *)
Definition cached (opts : list popt) (s : pst) (N : Z) (tags : list (Z * Z)) : Prop :=
  hd_error tags = Some (s_rootIndex s, 0) /\ zlen tags <= N /\ (forall e, In e tags -> 0 <= fst e < N) /\
  (exists e, repr e (s_l1 s) (level 1 0 tags) /\ 2^e = nth 1 (page_sizes (snd (window_of opts))) 0) /\
  (exists e, repr e (s_l2 s) (level 2 0 tags) /\ 2^e = nth 2 (page_sizes (snd (window_of opts))) 0).
Definition children_visited (opts : list popt) (s : pst) (tags : list (Z * Z)) : Prop :=
  let kids := of_depth 1 tags in
  zlen kids <= nth 1 (page_sizes (snd (window_of opts))) 0 ->
  forall o l depth enc ns bytes n, newVtdNav (s_rootIndex s) o l depth enc ns bytes (s_vtd s) (s_l1 s) (s_l2 s) (s_l3 s) = Ok n -> 2 <= depth ->
  exists n1 n2 r, hd_error tags = Some (r, 0) /\
    visit n (DirFirstChild :: tour true kids) = Some (n1, r :: kids) /\ toElement n1 DirNextSibling = (n1, Ok false) /\
    visit n (DirFirstChild :: tour false kids) = Some (n2, r :: rev kids) /\ toElement n2 DirPrevSibling = (n2, Ok false).
Lemma children_core opts s N0 tags : cached opts s N0 tags -> N0 < 2^28 -> children_visited opts s tags.
Proof.
  intros (Root & Lt & Bt & (e1 & R1 & P1) & _) B. unfold children_visited. cbv zeta.
  intros K o l depth enc ns bytes n N D.
  assert (T : map entry_token (level 1 0 tags) = of_depth 1 tags) by (apply level_tokens; [intros e He; specialize (Bt e He); lia | lia..]).
  assert (V : views (s_l1 s) (level 1 0 tags)) by (apply (views_of_repr e1); [exact R1 | rewrite level_count; lia | rewrite level_count; pose proof (of_depth_length 1 tags); lia]).
  destruct (nav_start _ _ _ _ _ _ _ _ _ _ _ _ _ N D V) as (n0 & M0 & C0 & A0 & _).
  destruct (visit_children true n0 _ A0) as (n1 & V1 & _ & _ & S1 & _). destruct (visit_children false n0 _ A0) as (n2 & V2 & _ & _ & S2 & _).
  assert (TL : forall f, tour f (of_depth 1 tags) = tour f (level 1 0 tags)).
  { intros f. rewrite <- T. destruct (level 1 0 tags) as [|w ws]; [reflexivity|]. cbn [map tour]. f_equal. rewrite map_map. reflexivity. }
  exists n1, n2, (s_rootIndex s). split; [exact Root|]. rewrite !TL, <- T. split; [exact (visit_cons _ _ _ _ _ _ _ M0 C0 V1)|]. split; [exact S1|].
  split; [rewrite <- map_rev; exact (visit_cons _ _ _ _ _ _ _ M0 C0 V2) | exact S2].
Qed.

(** ** C98: a navigator over the tables of a parser visits the children of the root
    in document order and backwards. *)
Theorem C98_children_partial : forall opts doc rest off s, scans opts doc rest off -> shallow_of opts = false -> runParser opts = Parsed s -> zlen doc < 2^28 ->
  exists d, wf d /\ shows d (window doc off) rest /\ exports s (map word (tokens off d)) /\
    children_visited opts s (start_tags 0 (tokens off d)).
Proof.
  intros opts doc rest off s R Sh E B. destruct (parsed_tree opts doc rest off s R Sh E) as (d & W & Ed & X & C).
  exists d. split; [exact W|]. split; [exact Ed|]. split; [exact X|]. exact (children_core _ _ _ _ C B).
Qed.
Print Assumptions C98_children_partial.

Definition first_child_found (opts : list popt) (s : pst) (tags : list (Z * Z)) : Prop :=
  zlen (of_depth 1 tags) <= nth 1 (page_sizes (snd (window_of opts))) 0 ->
  forall a i t, tags = a ++ (i, 1) :: t ->
  forall o l depth enc ns bytes n, newVtdNav (s_rootIndex s) o l depth enc ns bytes (s_vtd s) (s_l1 s) (s_l2 s) (s_l3 s) = Ok n -> 3 <= depth ->
  exists n1 r, visit n (DirFirstChild :: path (length (of_depth 1 a))) = Some (n1, r :: of_depth 1 a ++ [i]) /\
    match t with
    | (i', 2) :: _ => zlen (of_depth 2 a) < nth 2 (page_sizes (snd (window_of opts))) 0 ->
                      exists n2, toElement n1 DirFirstChild = (n2, Ok true) /\ getCurrentIndex n2 = Ok i'
    | _ => snd (toElement n1 DirFirstChild) <> Ok true
    end.
Lemma first_child_core opts s N0 tags : cached opts s N0 tags -> N0 < 2^28 -> first_child_found opts s tags.
Proof.
  intros (Root & Lt & Bt & (e1 & R1 & P1) & (e2 & R2 & P2)) B. unfold first_child_found.
  intros K a i t Et o l depth enc ns bytes n N D.
  assert (T : map entry_token (level 1 0 tags) = of_depth 1 tags) by (apply level_tokens; [intros e He; specialize (Bt e He); lia | lia..]).
  assert (V : views (s_l1 s) (level 1 0 tags)) by (apply (views_of_repr e1); [exact R1 | rewrite level_count; lia | rewrite level_count; pose proof (of_depth_length 1 tags); lia]).
  assert (Bi : 0 <= i < 2^28) by (assert (0 <= fst (i, 1) < N0) by (apply Bt; rewrite Et; apply in_or_app; right; left; reflexivity); cbn [fst] in *; lia).
  assert (O : of_depth 1 tags = of_depth 1 a ++ i :: of_depth 1 t) by (rewrite Et, of_depth_app; reflexivity).
  destruct (nav_start _ _ _ _ _ _ _ _ _ _ _ _ _ N ltac:(lia) V) as (n0 & M0 & C0 & A0 & L2 & LC).
  destruct (visit_to n0 _ (length (of_depth 1 a)) A0) as (n1 & V1 & A1 & B1 & LC1).
  { rewrite <- (map_length entry_token (level 1 0 tags)), T, O, app_length. cbn [length]. lia. }
  exists n1, (s_rootIndex s). split.
  { refine (eq_trans (visit_cons _ _ _ _ _ _ _ M0 C0 V1) _). do 3 f_equal. rewrite <- firstn_map, T, O. rewrite firstn_app, firstn_all2 by lia. replace (S (length (of_depth 1 a)) - length (of_depth 1 a))%nat with 1%nat by lia. reflexivity. }
  pose proof (level_at 1 a 0 i t) as LA. rewrite <- Et in LA. fold (zlen (of_depth 1 a)) in A1. assert (EL2 : n_l2 n1 = s_l2 s) by (rewrite (base_l2 _ _ B1); exact L2).
  assert (P9 : nth 2 (page_sizes (snd (window_of opts))) 0 <= 512).
  { unfold page_sizes, page_rows. cbn [find fst]. repeat match goal with |- context [if ?c then _ else _] => destruct c end; cbn; lia. }
  assert (Leaf : entry_child (leaf_entry i) = 65535) by (apply child_leaf; exact Bi).
  assert (NO : znth (level 1 0 tags) (zlen (of_depth 1 a)) = Some (leaf_entry i) -> snd (toElement n1 DirFirstChild) <> Ok true).
  { intros Ez. apply (child1_none n1 _ _ _ A1 Ez); [|rewrite LC1, LC; lia]. intros v Hv. rewrite Leaf, EL2 in Hv. apply (bat_read _ _ _ _ _ _ R2) in Hv. lia. }
  change (0 + zlen (of_depth (1 + 1) a)) with (zlen (of_depth 2 a)) in LA. change (1 + 1) with 2 in LA.
  destruct t as [|(i', d') t]; [exact (NO LA)|]. destruct (Z.eq_dec d' 2) as [->|N2].
  - change (2 =? 2) with true in LA. cbv iota in LA. intros K2. set (c := zlen (of_depth 2 a)) in *.
    assert (Bc : 0 <= c < 2^31) by (pose proof (zlen_nonneg (of_depth 2 a)); fold c in H; lia).
    assert (EC : entry_child (node_entry i c) = c) by (apply child_node; lia).
    pose proof (level_at 2 (a ++ [(i, 1)]) 0 i' t) as LB. rewrite of_depth_app, <- app_assoc in LB. cbn [app] in LB. rewrite <- Et in LB. change (of_depth 2 [(i, 1)]) with (@nil Z) in LB. rewrite app_nil_r in LB. fold c in LB.
    destruct (znth (level 2 0 tags) c) as [v|] eqn:Ev; [|discriminate LB].
    assert (Rv : longAt (s_l2 s) c = Ok v) by (apply (bat_read _ _ _ _ _ _ R2); split; [apply znth_value_at; exact Ev | lia]).
    destruct (child1_first n1 _ _ _ v A1 LA ltac:(lia) ltac:(rewrite LC1, LC; lia) ltac:(rewrite EC, EL2; exact Rv)) as (n2 & M2 & C2).
    exists n2. split; [exact M2|]. rewrite C2. f_equal.
    assert (Bi' : 0 <= i' < 2^28) by (assert (0 <= fst (i', 2) < N0) by (apply Bt; rewrite Et; apply in_or_app; right; right; left; reflexivity); cbn [fst] in *; lia).
    injection LB as ->. destruct t as [|(i3, d3) t]; [apply token_leaf; lia|]. change (2 + 1) with 3. destruct (d3 =? 3); [|apply token_leaf; lia]. apply token_node; [lia|]. change (0 + zlen (of_depth 3 (a ++ [(i, 1)]))) with (zlen (of_depth 3 (a ++ [(i, 1)]))).
    pose proof (zlen_nonneg (of_depth 3 (a ++ [(i, 1)]))). pose proof (of_depth_length 3 (a ++ [(i, 1)])).
    assert (zlen (a ++ [(i, 1)]) <= zlen tags) by (rewrite Et, !zlen_app; repeat rewrite zlen_cons; pose proof (zlen_nonneg t); change (zlen (@nil (Z * Z))) with 0; lia). lia.
  - replace (d' =? 2) with false in LA by lia. destruct d' as [|[p|[p|p|]|]|p]; first [exact (NO LA) | lia].
Qed.

(** ** C99: FirstChild on an element of the first level *)
Theorem C99_first_child_partial : forall opts doc rest off s, scans opts doc rest off -> shallow_of opts = false -> runParser opts = Parsed s -> zlen doc < 2^28 ->
  exists d, wf d /\ shows d (window doc off) rest /\ exports s (map word (tokens off d)) /\
    first_child_found opts s (start_tags 0 (tokens off d)).
Proof.
  intros opts doc rest off s R Sh E B. destruct (parsed_tree opts doc rest off s R Sh E) as (d & W & Ed & X & C).
  exists d. split; [exact W|]. split; [exact Ed|]. split; [exact X|]. exact (first_child_core _ _ _ _ C B).
Qed.
Print Assumptions C99_first_child_partial.

(** ** Concrete documents *)
(** The navigator over the tables of the parser for the text [t] *)
Definition nav_over (t : string) : option nav :=
  match runParser [OXmlDoc (Some (bytes_of t)); OLcDepth 5] with
  | Parsed s => match newVtdNav (s_rootIndex s) 0 (zlen (bytes_of t)) 8 0 false (Some (bytes_of t)) (s_vtd s) (s_l1 s) (s_l2 s) (s_l3 s) with Ok n => Some n | _ => None end
  | _ => None
  end.
Definition tokens_visited (t : string) (dirs : list Z) : option (list Z) :=
  match nav_over t with Some n => match visit n dirs with Some (_, l) => Some l | None => None end | None => None end.
Definition three : string := "<a><e><f/></e><b/><c><d/></c></a>".
(** tokens: document 0, a 1, e 2, f 3, b 4, c 5, d 6 *)
Example C98_example : tokens_visited three (DirFirstChild :: tour true [2; 4; 5]) = Some [1; 2; 4; 5] /\
  tokens_visited three (DirFirstChild :: tour false [2; 4; 5]) = Some [1; 5; 4; 2].
Proof. split; vm_compute; reflexivity. Qed.
Example C99_example : tokens_visited three (DirFirstChild :: path 0 ++ [DirFirstChild]) = Some [1; 2; 3] /\
  tokens_visited three (DirFirstChild :: path 2 ++ [DirFirstChild]) = Some [1; 2; 4; 5; 6].
Proof. split; vm_compute; reflexivity. Qed.

(** The last of 33 children is not found. *)
Fixpoint copies (k : nat) (t : string) : string := match k with O => "" | S k' => (t ++ copies k' t)%string end.
Theorem C98_many_children_refuted : exists t n n1, nav_over t = Some n /\ toElement n DirFirstChild = (n1, Ok true) /\
  b_size (n_l1 n1) = 33 /\ snd (toElement n1 DirLastChild) <> Ok true.
Proof.
  exists ("<a>" ++ copies 33 "<b/>" ++ "</a>")%string. eexists. eexists. split; [vm_compute; reflexivity|]. split; [vm_compute; reflexivity|]. split; [vm_compute; reflexivity|]. vm_compute. discriminate.
Qed.
Print Assumptions C98_many_children_refuted.
(** LastChild moves from b (token 4), which has no children, to f (token 3), a child of e; *)
Theorem C99_leaf_last_child_refuted : exists t, tokens_visited t (DirFirstChild :: path 1 ++ [DirLastChild]) = Some [1; 2; 4; 3] /\
  tokens_visited t (DirFirstChild :: path 0 ++ [DirFirstChild]) = Some [1; 2; 3].
Proof. exists three. split; vm_compute; reflexivity. Qed.
Print Assumptions C99_leaf_last_child_refuted.
(** and does not find f from e (token 2), and a failed move loses the cursor: the next
    current index is -1. *)
Theorem C99_failed_last_child_refuted : exists n n1 n2, nav_over three = Some n /\ visit n (DirFirstChild :: path 0) = Some (n1, [1; 2]) /\
  toElement n1 DirLastChild = (n2, Ok false) /\ getCurrentIndex n1 = Ok 2 /\ getCurrentIndex n2 = Ok (-1).
Proof.
  eexists. eexists. eexists. split; [vm_compute; reflexivity|]. split; [vm_compute; reflexivity|]. split; [vm_compute; reflexivity|]. split; vm_compute; reflexivity.
Qed.
Print Assumptions C99_failed_last_child_refuted.
