(** From a tree to its grandchildren: FirstChild at the children of the root. *)
From Verif Require Import Lib XmlChar Buffer BufferProofs SpecBuffer Reader ParserState ParserPrim ParserProc ParserMain SpecParse ParserWp ParserOutcome ParserFrame
  SpecToken TokenProofs SpecNav Nav NavStrProofs PropertiesNav NavMoveProofs NavCacheProofs SpecChar SpecDoc SpecWindow SpecLoc SpecPart SpecNested SpecContent DocScan DocBase DocLoc DocMain DocShow DocCut NavParsed PropertiesParse PropertiesQuirks PropertiesDoc PartProofs PropertiesPages PropertiesTree PropertiesRead PropertiesNames PropertiesNested PropertiesContent PropertiesSteady.

(** ** Element names with their positions among the pieces and their depths *)
Fixpoint named (i : Z) (ps : list piece) : list (Z * Z * list byte) :=
  match ps with [] => [] | (ty, d, y) :: r => (if ty =? 0 then [(i, d, y)] else []) ++ named (i + 1) r end.
Lemma named_app a : forall i b, named i (a ++ b) = named i a ++ named (i + zlen a) b.
Proof. induction a as [|((ty, d), y) a IH]; intros i b; [cbn [app named]; f_equal; cbn; lia|]. cbn [app named]. rewrite IH, <- app_assoc, zlen_cons. do 3 f_equal. lia. Qed.
Lemma named_none ps : Forall (fun p => fst (fst p) <> 0) ps -> forall i, named i ps = [].
Proof. induction 1 as [|((ty, d), y) ps H F IH]; intros i; [reflexivity|]. cbn [named fst] in *. replace (ty =? 0) with false by lia. apply IH. Qed.
Lemma named_tags ts : forall i xs, length ts = length xs -> start_tags i ts = map fst (named i (zip ts xs)).
Proof. induction ts as [|t ts IH]; intros i [|x xs] L; try discriminate L; [reflexivity|]. cbn [start_tags zip named]. rewrite (IH (i + 1) xs) by (cbn [length] in L; lia). destruct (t_type t =? 0); reflexivity. Qed.
Lemma named_at ps : forall i0 i d y, In (i, d, y) (named i0 ps) -> value_at ps (i - i0) (0, d, y).
Proof.
  induction ps as [|((ty, d'), y') ps IH]; intros i0 i d y H; [contradiction|]. cbn [named] in H. apply in_app_or in H. destruct H as [H|H].
  - destruct (ty =? 0) eqn:E; [|contradiction]. destruct H as [H|[]]. injection H as <- <- <-. assert (ty = 0) by lia. subst ty. exists [], ps. split; [reflexivity | cbn; lia].
  - destruct (IH _ _ _ _ H) as (u & v & -> & Lu). exists ((ty, d', y') :: u), v. split; [reflexivity | cbn [length]; lia].
Qed.
Definition forest_pieces (d : Z) (kids : list (tree * gap)) : list piece := flat_map (fun p => tree_pieces d (fst p) ++ text_pieces d false (snd p)) kids.
Definition kids_of (t : tree) : list (tree * gap) := match t with Leaf _ => [] | Elem _ _ _ _ kids _ => kids end.
Lemma attrs_unnamed d l : Forall (fun p : piece => fst (fst p) <> 0) (flat_map (attr_pieces d) l).
Proof. induction l as [|a l IH]; [constructor|]. cbn [flat_map attr_pieces app]. constructor; [cbn; destruct (ns_name _); discriminate|]. constructor; [discriminate | exact IH]. Qed.
Lemma text_unnamed d b g : Forall (fun p : piece => fst (fst p) <> 0) (text_pieces d b g).
Proof. destruct g; cbn [text_pieces]; [destruct (_ && _)|]; repeat constructor. discriminate. Qed.
Lemma named_text i d b g : named i (text_pieces d b g) = [].
Proof. apply named_none, text_unnamed. Qed.
Lemma named_tree t d i : match own_name t with
  | [] => named i (tree_pieces d t) = []
  | n :: _ => exists j, named i (tree_pieces d t) = (i, d + 1, n) :: named j (forest_pieces (d + 1) (kids_of t))
  end.
Proof.
  destruct t as [m|n atts tail g kids w].
  - destruct m as [n atts tl e| | | |n [(b, v)|]|]; cbn [own_name tree_pieces markup_pieces]; try reflexivity. exists 0. cbn [named kids_of forest_pieces flat_map]. change (0 =? 0) with true. cbn [app]. f_equal. apply named_none, attrs_unnamed.
  - cbn [own_name kids_of]. rewrite pieces_elem. cbn [named]. change (0 =? 0) with true. cbn [app]. rewrite !named_app, (named_none _ (attrs_unnamed _ _)), named_text. cbn [app]. eexists. reflexivity.
Qed.
Lemma forest_cons d t g kids i : exists j, named i (forest_pieces d ((t, g) :: kids)) = named i (tree_pieces d t) ++ named j (forest_pieces d kids).
Proof. unfold forest_pieces. cbn [flat_map fst snd]. rewrite !named_app, named_text, app_nil_r. eexists. reflexivity. Qed.
Lemma forest_app d a b i : exists j, named i (forest_pieces d (a ++ b)) = named i (forest_pieces d a) ++ named j (forest_pieces d b).
Proof. unfold forest_pieces. rewrite flat_map_app, named_app. eexists. reflexivity. Qed.
Lemma forest_head d kids : forall i, match flat_map own_name (map fst kids) with
  | [] => named i (forest_pieces d kids) = []
  | y :: _ => exists j r, named i (forest_pieces d kids) = (j, d + 1, y) :: r
  end.
Proof.
  induction kids as [|(t, g) kids IH]; intros i; [reflexivity|]. cbn [map flat_map fst]. destruct (forest_cons d t g kids i) as (j & ->). pose proof (named_tree t d i) as T.
  destruct (own_name t) as [|n r] eqn:E; cbn [app].
  - rewrite T. cbn [app]. apply IH.
  - destruct T as (j' & ->). cbn [app]. eexists _, _. reflexivity.
Qed.

(** ** Names of a level *)
Definition sized (k : Z) (l : list (Z * Z * list byte)) : list (list byte) := map snd (filter (fun e => snd (fst e) =? k) l).
Lemma sized_app k a b : sized k (a ++ b) = sized k a ++ sized k b.
Proof. unfold sized. rewrite filter_app, map_app. reflexivity. Qed.
Lemma sized_length k l : length (of_depth k (map fst l)) = length (sized k l).
Proof. unfold of_depth, sized. rewrite !map_length. induction l as [|e l IH]; [reflexivity|]. cbn [map filter]. destruct (snd (fst e) =? k); cbn [length]; rewrite ?IH; reflexivity. Qed.
Lemma own_one t : own_name t = [] \/ exists n, own_name t = [n].
Proof. destruct t as [[]|]; cbn [own_name]; eauto. Qed.
Lemma kids_children t : children t = map fst (kids_of t).
Proof. destruct t; reflexivity. Qed.
Lemma tree_shallow t : forall d i k, k <= d -> sized k (named i (tree_pieces d t)) = [].
Proof.
  induction t as [m|n atts tail g kids w IH] using tree_ind'; intros d i k H.
  - pose proof (named_tree (Leaf m) d i) as T. destruct (own_one (Leaf m)) as [E|(n & E)]; rewrite E in T; [rewrite T; reflexivity|]. destruct T as (j & ->). cbn [kids_of forest_pieces flat_map named]. unfold sized. cbn [filter fst snd]. replace (d + 1 =? k) with false by lia. reflexivity.
  - pose proof (named_tree (Elem n atts tail g kids w) d i) as T. cbn [own_name kids_of] in T. destruct T as (j & ->). unfold sized at 1. cbn [filter fst snd]. replace (d + 1 =? k) with false by lia. fold (sized k (named j (forest_pieces (d + 1) kids))).
    revert j. induction kids as [|(t, g') r IHr]; intros j; [reflexivity|]. inversion IH as [|? ? I1 I2]; subst. destruct (forest_cons (d + 1) t g' r j) as (j' & ->). cbn [fst] in I1. rewrite sized_app, I1, IHr by (assumption || lia). reflexivity.
Qed.
Lemma tree_level t : forall d i k, sized (d + 1 + Z.of_nat k) (named i (tree_pieces d t)) = level_names k t.
Proof.
  induction t as [m|n atts tail g kids w IH] using tree_ind'; intros d i k.
  - pose proof (named_tree (Leaf m) d i) as T. destruct (own_one (Leaf m)) as [E|(n & E)]; rewrite E in T.
    + rewrite T. destruct k; [symmetry; exact E | reflexivity].
    + destruct T as (j & ->). cbn [kids_of forest_pieces flat_map named]. unfold sized. cbn [filter fst snd]. destruct k as [|k]; [replace (d + 1 =? _) with true by lia; symmetry; exact E | replace (d + 1 =? _) with false by lia; reflexivity].
  - pose proof (named_tree (Elem n atts tail g kids w) d i) as T. cbn [own_name kids_of] in T. destruct T as (j & ->). unfold sized at 1. cbn [filter fst snd]. fold (sized (d + 1 + Z.of_nat k) (named j (forest_pieces (d + 1) kids))).
    destruct k as [|k]; [replace (d + 1 =? _) with true by lia | replace (d + 1 =? _) with false by lia]; cbn [map level_names own_name children].
    + f_equal. clear IH. revert j. induction kids as [|(t, g') r IHr]; intros j; [reflexivity|]. destruct (forest_cons (d + 1) t g' r j) as (j' & ->). fold (sized (d + 1 + Z.of_nat 0)) in *. fold (sized (d + 1 + Z.of_nat 0) (named j (tree_pieces (d + 1) t) ++ named j' (forest_pieces (d + 1) r))). rewrite sized_app, tree_shallow by lia. apply IHr.
    + fold (sized (d + 1 + Z.of_nat (S k)) (named j (forest_pieces (d + 1) kids))). revert j. induction kids as [|(t, g') r IHr]; intros j; [reflexivity|]. inversion IH as [|? ? I1 I2]; subst. destruct (forest_cons (d + 1) t g' r j) as (j' & ->). cbn [fst map flat_map] in *.
      rewrite sized_app, (IHr I2). f_equal. replace (d + 1 + Z.of_nat (S k)) with (d + 1 + 1 + Z.of_nat k) by lia. apply I1.
Qed.
Lemma forest_level kids d k : forall i, sized (d + 1 + Z.of_nat k) (named i (forest_pieces d kids)) = flat_map (level_names k) (map fst kids).
Proof. induction kids as [|(t, g) r IH]; intros i; [reflexivity|]. destruct (forest_cons d t g r i) as (j & ->). cbn [map flat_map fst]. rewrite sized_app, tree_level, IH. reflexivity. Qed.
Lemma decl_unnamed s e : Forall (fun p : piece => fst (fst p) <> 0) (decl_pieces s e).
Proof. destruct s as [j|w|d]; cbn [decl_pieces]; [constructor..|]. destruct (d_rest d) as [((w, [en|]), [sa|])|]; repeat (constructor; [discriminate|]); constructor. Qed.
Lemma epis_unnamed l : Forall (fun p : piece => fst (fst p) <> 0) (flat_map epi_pieces l).
Proof. induction l as [|e l IH]; [constructor|]. cbn [flat_map epi_pieces app]. repeat (constructor; [discriminate|]). exact IH. Qed.
Lemma named_doc x : xwf x -> exists r, named 1 (pieces_of enc_part x) = named r (tree_pieces (-1) (x_root x)).
Proof.
  intros (_ & (_ & P) & _). unfold pieces_of. rewrite !named_app, (named_none _ (decl_unnamed _ _)), (named_none _ (epis_unnamed _)), app_nil_r. cbn [app].
  rewrite (named_none (flat_map _ (x_prolog x))); [eexists; reflexivity|].
  induction (x_prolog x) as [|(m, g) l IH]; [constructor|]. inversion P as [|? ? P1 P2]; subst. cbn [flat_map fst snd] in *. apply Forall_app. split; [|exact (IH P2)]. apply Forall_app. split; [|apply text_unnamed].
  destruct m; try contradiction; cbn [markup_pieces]; repeat (constructor; [discriminate|]); constructor.
Qed.

(** ** C121 *)
Definition reads_name (n0 : Z) (n : nav) (i : Z) (y : list byte) : Prop :=
  getCurrentIndex n = Ok i /\ (i < first_page n0 -> ~ In x3a y -> toRawStringAtIndex n i = Some (Ok y) /\ toStringAtIndex n i = Some (Ok y)).
Lemma over_new s buffer o l depth enc ns n : newVtdNav (s_rootIndex s) o l depth enc ns (Some buffer) (s_vtd s) (s_l1 s) (s_l2 s) (s_l3 s) = Ok n -> byteEnc enc = true -> over n s buffer.
Proof. intros N BE. unfold newVtdNav in N. destruct (depth <? 0); [discriminate N|]. cbn [newUniByteBuffer obind] in N. injection N as <-. repeat split. exact BE. Qed.
Lemma over_steady n m s buffer : steady n m -> over n s buffer -> over m s buffer.
Proof. intros S (A & B & C). split; [rewrite (st_vtd _ _ S); exact A|]. split; [rewrite (st_xml _ _ S); exact B | rewrite (st_enc _ _ S); exact C]. Qed.
Lemma visit_last dirs : forall n m l i, visit n dirs = Some (m, l ++ [i]) -> getCurrentIndex m = Ok i.
Proof.
  induction dirs as [|d t IH]; intros n m l i E; cbn [visit] in E; [injection E as _ E; destruct l; discriminate E|].
  destruct (toElement n d) as (n', [[]| |]); try discriminate E. destruct (getCurrentIndex n') as [j| |] eqn:G; try discriminate E. destruct (visit n' t) as [(m', l')|] eqn:V; [|discriminate E].
  injection E as <- E. destruct l as [|a l]; cbn [app] in E; injection E as <- E.
  - subst l'. destruct t as [|d' t]; [injection V as <-; exact G|]. exfalso. cbn [visit] in V. destruct (toElement n' d') as (n2, [[]| |]); try discriminate V. destruct (getCurrentIndex n2); try discriminate V. destruct (visit n2 t) as [(? & ?)|]; discriminate V.
  - subst l'. exact (IH _ _ _ _ V).
Qed.
(** [child] is a child of the root after the children [before]. *)
Definition descends (opts : list popt) (s : pst) (buffer : list byte) (n0 : Z) (root child : tree) (before : list tree) (name : list byte) : Prop :=
  zlen (level_names 1 root) <= nth 1 (page_sizes (snd (window_of opts))) 0 ->
  forall o l depth enc ns n, newVtdNav (s_rootIndex s) o l depth enc ns (Some buffer) (s_vtd s) (s_l1 s) (s_l2 s) (s_l3 s) = Ok n -> 3 <= depth -> byteEnc enc = true ->
  exists n1 i path1, visit n (DirFirstChild :: path (length (flat_map own_name before))) = Some (n1, path1) /\ reads_name n0 n1 i name /\
    match level_names 1 child with
    | y :: _ => zlen (flat_map (level_names 1) before) < nth 2 (page_sizes (snd (window_of opts))) 0 ->
                exists n2 i', toElement n1 DirFirstChild = (n2, Ok true) /\ reads_name n0 n2 i' y
    | [] => snd (toElement n1 DirFirstChild) <> Ok true
    end.
Theorem C121_first_child_partial : forall opts doc rest off x r0 atts tail g ka c gc kb w name, scans opts doc rest off -> ns_of opts = false -> shallow_of opts = false -> zlen (doc ++ rest) < 2^20 ->
  xwf x -> xshows x (window doc off) rest -> x_root x = Elem r0 atts tail g (ka ++ (c, gc) :: kb) w -> own_name c = [name] ->
  exists s, runParser opts = Parsed s /\ descends opts s (doc ++ rest) (zlen (window doc off)) (x_root x) c (map fst ka) name.
Proof.
  intros opts doc rest off x r0 atts tail g ka c gc kb w name R N Sh B X S Er Ec. pose proof (zlen_app doc rest) as LA. pose proof (zlen_nonneg rest).
  assert (S' : shows (to_doc x) (window doc off) rest) by (unfold shows, xshows in *; rewrite doc_render by apply X; exact S).
  destruct (scan_ok opts doc rest off (to_doc x) R N ltac:(lia) (doc_wf x X) S') as (s & E & Q). exists s. split; [exact E|].
  pose proof (content_core opts doc rest off s x R B X S' Q) as (_ & RC). pose proof (parsed_tree_of _ _ _ _ _ _ R Sh E ltac:(lia) (doc_wf x X) S' Q) as C. cbv zeta in C.
  pose proof (first_child_core _ _ _ _ C ltac:(lia)) as FC. clear C.
  destruct (window_length _ _ _ _ _ R S') as (_ & WL). pose proof R as (_ & _ & Ho & _). pose proof (parts_ok opts doc rest off (to_doc x) R (doc_wf x X) S' ltac:(lia)) as F. pose proof (forall2_len _ _ _ F) as FL.
  assert (LB : zlen (d_body (to_doc x)) <= max_token).
  { destruct (shows_parts _ _ _ (doc_wf x X) S') as (w' & r & _ & _ & Lq & _). unfold d_body, max_token in *. pose proof (zlen_nonneg (render_start (d_start (to_doc x)))). lia. }
  assert (TG : start_tags 0 (tokens off (to_doc x)) = map fst (named 1 (pieces_of enc_part x))).
  { rewrite <- (doc_zip off x X LB), <- (named_tags _ 1 _ FL). reflexivity. }
  rewrite TG in FC. clear TG.
  destruct (named_doc x X) as (r & ND). pose proof (named_tree (x_root x) (-1) r) as NT. pose proof ND as ND'. rewrite Er in NT, ND'. cbn [own_name] in NT. destruct NT as (j & NT). cbn [kids_of] in NT. change (-1 + 1) with 0 in NT.
  destruct (forest_app 0 ka ((c, gc) :: kb) j) as (j1 & NA). destruct (forest_cons 0 c gc kb j1) as (j2 & NC). pose proof (named_tree c 0 j1) as NK. rewrite Ec in NK. destruct NK as (j3 & NK). change (0 + 1) with 1 in NK.
  set (A := named j (forest_pieces 0 ka)) in *. set (K := named j3 (forest_pieces 1 (kids_of c))) in *. set (T := named j2 (forest_pieces 0 kb)) in *.
  assert (AL : named 1 (pieces_of enc_part x) = ((r, 0, r0) :: A) ++ (j1, 1, name) :: K ++ T) by (rewrite ND', NT, NA, NC, NK; reflexivity).
  assert (LV : forall k, sized (Z.of_nat k) (named 1 (pieces_of enc_part x)) = level_names k (x_root x)) by (intros k; rewrite ND; exact (tree_level (x_root x) (-1) r k)).
  assert (CA : forall k, length (of_depth (1 + Z.of_nat k) (map fst ((r, 0, r0) :: A))) = length (flat_map (level_names k) (map fst ka))).
  { intros k. rewrite sized_length. unfold sized at 1. cbn [filter fst snd]. replace (0 =? 1 + Z.of_nat k) with false by lia. fold (sized (1 + Z.of_nat k) A). f_equal. exact (forest_level ka 0 k j). }
  assert (RN : forall n i d y, over n s (doc ++ rest) -> getCurrentIndex n = Ok i -> In (i, d, y) (named 1 (pieces_of enc_part x)) -> reads_name (zlen (window doc off)) n i y).
  { intros n i d y O G Hin. split; [exact G|]. intros I Nc. apply named_at in Hin. destruct (RC n O (i - 1) 0 d y Hin ltac:(lia)) as (_ & _ & T1 & T2).
    - split; [intros _; exact Nc | intuition discriminate].
    - replace (i - 1 + 1) with i in * by lia. split; assumption. }
  intros K1 o l depth enc ns n Nn D BE. pose proof (over_new _ _ _ _ _ _ _ _ Nn BE) as O.
  assert (K1' : zlen (of_depth 1 (map fst (named 1 (pieces_of enc_part x)))) <= nth 1 (page_sizes (snd (window_of opts))) 0).
  { unfold zlen. rewrite sized_length. rewrite (LV 1%nat : sized 1 _ = _). exact K1. }
  assert (AM : map fst (named 1 (pieces_of enc_part x)) = map fst ((r, 0, r0) :: A) ++ (j1, 1) :: map fst (K ++ T)) by (rewrite AL, map_app; reflexivity).
  specialize (FC K1' _ _ _ AM o l depth enc ns (Some (doc ++ rest)) n Nn D).
  rewrite (CA 0%nat : length (of_depth 1 _) = _) in FC.
  destruct FC as (n1 & rt & V & M). exists n1, j1. eexists. split; [exact V|].
  pose proof (visit_after _ _ _ _ V) as Va. assert (O1 : over n1 s (doc ++ rest)) by (apply (over_steady n); [rewrite Va; apply steady_moves | exact O]).
  assert (G1 : getCurrentIndex n1 = Ok j1) by exact (visit_last _ _ _ (rt :: _) _ V).
  split; [apply (RN n1 j1 1 name O1 G1); rewrite AL; apply in_or_app; right; left; reflexivity|].
  pose proof (forest_head 1 (kids_of c) j3) as FH. fold K in FH. rewrite <- kids_children in FH. change (flat_map own_name (children c)) with (level_names 1 c) in FH.
  destruct (level_names 1 c) as [|y ys].
  - rewrite FH in M. cbn [app] in M. pose proof (forest_head 0 kb j2) as FT. fold T in FT. destruct (flat_map own_name (map fst kb)) as [|z zs].
    + rewrite FT in M. exact M.
    + destruct FT as (q & qs & EQ). rewrite EQ in M. exact M.
  - destruct FH as (q & qs & EQ). rewrite EQ in M. cbn [app map fst] in M. change (1 + 1) with 2 in M. intros K2. destruct M as (n2 & M1 & M2).
    { pose proof (CA 1%nat) as C1. change (1 + Z.of_nat 1) with 2 in C1. cbn [map fst] in C1. unfold zlen. rewrite C1. exact K2. }
    exists n2, q. split; [exact M1|]. assert (O2 : over n2 s (doc ++ rest)) by (apply (over_steady n1); [replace n2 with (fst (toElement n1 DirFirstChild)) by (rewrite M1; reflexivity); apply steady_move | exact O1]).
    apply (RN n2 q 2 y O2 M2). rewrite AL. apply in_or_app. right. right. rewrite EQ. left. reflexivity.
Qed.
Print Assumptions C121_first_child_partial.

(** The children of the root of [small_tree] and the first child of the first of them *)
Example C121_example : names_visited small (DirFirstChild :: path 0 ++ [DirFirstChild]) = Some [lit "list"; lit "item"; lit "sub"] /\
  names_visited small (DirFirstChild :: path 1) = Some [lit "list"; lit "item"; lit "other"] /\ names_visited small (DirFirstChild :: path 1 ++ [DirFirstChild]) = None.
Proof. repeat split; vm_compute; reflexivity. Qed.
