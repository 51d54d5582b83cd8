(** Accepted documents are trees. *)
From Verif Require Import Lib XmlChar Buffer BufferProofs SpecBuffer Reader ParserState ParserPrim ParserProc ParserMain SpecParse ParserWp ParserOutcome ParserFrame
  SpecToken TokenProofs SpecNav Nav NavStrProofs PropertiesToken PropertiesNav NavMoveProofs NavCacheProofs SpecChar SpecDoc SpecNested SpecWindow SpecLoc SpecPart DocScan DocBase DocLoc DocMain DocShow DocCut NavParsed PropertiesParse PropertiesQuirks PropertiesDoc PartProofs PropertiesPages PropertiesTree PropertiesRead PropertiesNames.

(** ** The sequence of markups of a tree *)
Fixpoint flat (t : tree) (g0 : gap) : list (markup * gap) :=
  match t with
  | Leaf m => [(m, g0)]
  | Elem n atts tail g kids w =>
      (MStart n atts tail false, g) :: concat (map (fun p => match p with (k, g') => flat k g' end) kids) ++ [(MEnd n w, g0)]
  end.
Definition flats (kids : list (tree * gap)) : list (markup * gap) := concat (map (fun p => match p with (k, g') => flat k g' end) kids).
Lemma flat_elem n atts tail g kids w g0 : flat (Elem n atts tail g kids w) g0 = (MStart n atts tail false, g) :: flats kids ++ [(MEnd n w, g0)].
Proof. reflexivity. Qed.
Definition kids_wf (st : list (list byte)) (kids : list (tree * gap)) : Prop := Forall (fun p => tree_wf [] st (fst p) /\ wf_gap (last_of (fst p)) st (snd p)) kids.
Lemma tree_wf_elem j st n atts tail g kids w : tree_wf j st (Elem n atts tail g kids w) <->
  wf_markup j st (MStart n atts tail false) /\ wf_gap (MStart n atts tail false) (n :: st) g /\ blank w = true /\ kids_wf (n :: st) kids.
Proof.
  assert (H : forall st' l, (fix all (l : list (tree * gap)) : Prop := match l with [] => True | (k, g') :: r => (tree_wf [] st' k /\ wf_gap (last_of k) st' g') /\ all r end) l <-> kids_wf st' l).
  { intros st' l. induction l as [|(k, g') r IH]; [split; [constructor | exact (fun _ => I)]|]. unfold kids_wf in *. rewrite Forall_cons_iff. rewrite <- IH. reflexivity. }
  cbn [tree_wf]. rewrite H. reflexivity.
Qed.
(** A stronger induction principle *)
Lemma tree_ind' (P : tree -> Prop) : (forall m, P (Leaf m)) -> (forall n atts tail g kids w, Forall (fun p => P (fst p)) kids -> P (Elem n atts tail g kids w)) -> forall t, P t.
Proof.
  intros HL HE. fix F 1. intros [m|n atts tail g kids w]; [apply HL|]. apply HE. induction kids as [|(k, g') r IH]; constructor; [apply F | exact IH].
Qed.

(** ** From a tree to a sequence *)
Lemma leafy_after m st : leafy m = true -> after m st = st.
Proof. destruct m as [n a t []|n w|x|x|n v|x]; cbn; intros H; try discriminate H; reflexivity. Qed.
Lemma flat_wf t : forall st g l f, st <> [] -> tree_wf [] st t -> wf_gap (last_of t) st g -> wf_body [] st l f -> wf_body [] st (flat t g ++ l) f.
Proof.
  induction t as [m|n atts tail g0 kids w IH] using tree_ind'; intros st g l f N T G B.
  - destruct T as (T1 & T2). cbn [flat app wf_body last_of] in *. rewrite leafy_after by exact T1. split; [exact T2|]. split; [intros _; exact N|]. split; [exact G | exact B].
  - apply tree_wf_elem in T. destruct T as (T1 & T2 & T3 & T4). rewrite flat_elem. cbn [app wf_body after]. split; [exact T1|]. split; [intros []|]. split; [exact T2|]. rewrite <- app_assoc. cbn [app].
    assert (B' : wf_body [] (n :: st) ((MEnd n w, g) :: l) f). { cbn [wf_body wf_markup after tl hd_error last_of] in *. split; [split; [reflexivity | exact T3]|]. split; [intros _; exact N|]. split; [exact G | exact B]. }
    clear - IH T4 B'. induction kids as [|(k, g') r IHr]; [exact B'|]. unfold flats in *. cbn [map concat]. rewrite <- app_assoc. inversion IH as [|? ? I1 I2]; subst. inversion T4 as [|? ? K1 K2]; subst. cbn [fst snd] in *.
    apply I1; [discriminate | apply K1 | apply K1 | apply IHr; [exact I2 | exact K2]].
Qed.
Definition root_items (t : tree) : list (markup * gap) := match t with Leaf _ => [] | Elem n atts tail g kids _ => (MStart n atts tail false, g) :: flats kids end.
Lemma root_wf t j : rooted t -> tree_wf j [] t -> wf_body j [] (root_items t) (last_of t).
Proof.
  destruct t as [m|n atts tail g kids w]; intros R T.
  - destruct m as [n a t []|n w|x|x|n v|x]; try contradiction. destruct T as (_ & T). cbn [root_items last_of wf_body]. split; [exact T|]. split; [exact I | reflexivity].
  - apply tree_wf_elem in T. destruct T as (T1 & T2 & T3 & T4). cbn [root_items last_of wf_body after]. split; [exact T1|]. split; [intros []|]. split; [exact T2|].
    assert (B' : wf_body [] [n] [] (MEnd n w)) by (cbn [wf_body wf_markup after tl hd_error]; split; [split; [reflexivity | exact T3] | split; [exact I | reflexivity]]).
    clear - T4 B'. induction kids as [|(k, g') r IHr]; [exact B'|]. unfold flats in *. cbn [map concat]. inversion T4 as [|? ? K1 K2]; subst. cbn [fst snd] in *.
    apply flat_wf; [discriminate | apply K1 | apply K1 | exact (IHr K2)].
Qed.

(** ** From a sequence to a tree *)
Lemma inside_tree : forall m l n st f, (length l <= m)%nat -> wf_body [] (n :: st) l f ->
  exists kids w, kids_wf (n :: st) kids /\ blank w = true /\
    ((st = [] /\ l = flats kids /\ f = MEnd n w) \/
     (st <> [] /\ exists g l', l = flats kids ++ (MEnd n w, g) :: l' /\ wf_gap (MEnd n w) st g /\ wf_body [] st l' f)).
Proof.
  induction m as [|m IH]; intros l n st f L W.
  - destruct l; [|cbn [length] in L; lia]. cbn [wf_body] in W. destruct W as (W1 & W2 & W3). destruct f as [a b c []|a w|x|x|a v|x]; try contradiction; [discriminate W3|].
    cbn [wf_markup hd_error after tl] in *. destruct W1 as (W1 & Wb). injection W1 as <-. exists [], w. split; [constructor|]. split; [exact Wb|]. left. auto.
  - destruct l as [|(k, g) l].
    + apply (IH [] n st f); [cbn [length]; lia | exact W].
    + cbn [length] in L. cbn [wf_body] in W. destruct W as (W1 & W2 & W3 & W4). destruct (leafy k) eqn:Lk.
      * rewrite leafy_after in W2, W3, W4 by exact Lk. destruct (IH l n st f ltac:(lia) W4) as (kids & w & K & Bw & D).
        exists ((Leaf k, g) :: kids), w. split; [constructor; [split; [split; assumption | exact W3] | exact K]|]. split; [exact Bw|].
        destruct D as [(D1 & D2 & D3)|(D1 & g1 & l1 & D2 & D3)]; [left | right]; (split; [exact D1|]); [split; [rewrite D2; reflexivity | exact D3]|]. exists g1, l1. split; [rewrite D2; reflexivity | exact D3].
      * destruct k as [a b c []|a w|x|x|a v|x]; try discriminate Lk.
        { cbn [after] in *. destruct (IH l a (n :: st) f ltac:(lia) W4) as (kids1 & w1 & K1 & Bw1 & [(D1 & _)|(_ & g1 & l1 & D2 & D3 & D4)]); [discriminate D1|].
          assert (L1 : (length l1 <= m)%nat) by (rewrite D2, app_length in L; cbn [length] in L; lia). destruct (IH l1 n st f L1 D4) as (kids & w & K & Bw & D).
          exists ((Elem a b c g kids1 w1, g1) :: kids), w. split; [constructor; [split; [apply tree_wf_elem; auto | exact D3] | exact K]|]. split; [exact Bw|].
          assert (FE : forall u, (MStart a b c false, g) :: flats kids1 ++ (MEnd a w1, g1) :: u = flat (Elem a b c g kids1 w1) g1 ++ u) by (intros u; rewrite flat_elem; cbn [app]; rewrite <- app_assoc; reflexivity).
          rewrite D2, FE. destruct D as [(D5 & D6 & D7)|(D5 & g5 & l5 & D6 & D7)]; [left | right]; (split; [exact D5|]); rewrite D6; [split; [reflexivity | exact D7]|].
          exists g5, l5. split; [unfold flats; cbn [map concat]; rewrite <- app_assoc; reflexivity | exact D7]. }
        { cbn [after tl wf_markup hd_error] in *. destruct W1 as (W1 & Wb). injection W1 as <-. exists [], w. split; [constructor|]. split; [exact Wb|]. right. split; [apply W2; exact I|]. exists g, l. auto. }
Qed.
Definition markup_first (l : list (markup * gap)) (f : markup) : markup := match l with [] => f | (m, _) :: _ => m end.
Lemma top_tree l : forall j f, wf_body j [] l f -> exists pro root, l = pro ++ root_items root /\ f = last_of root /\ prolog_wf j pro /\ rooted root /\ tree_wf (match pro with [] => j | _ => [] end) [] root.
Proof.
  induction l as [|(m, g) l IH]; intros j f W; cbn [wf_body] in W.
  - destruct W as (W1 & W2 & W3). destruct f as [a b c []|a w|x|x|a v|x]; try contradiction; [|cbn [wf_markup hd_error] in W1; destruct W1 as (W1 & _); discriminate W1].
    exists [], (Leaf (MStart a b c true)). split; [reflexivity|]. split; [reflexivity|]. split; [split; [exact I | constructor]|]. split; [exact I|]. split; [reflexivity | exact W1].
  - destruct W as (W1 & W2 & W3 & W4).
    assert (PR : (match m with MComment _ | MPi _ _ => True | _ => False end) -> exists pro root, (m, g) :: l = pro ++ root_items root /\ f = last_of root /\ prolog_wf j pro /\ rooted root /\ tree_wf (match pro with [] => j | _ => [] end) [] root).
    { intros K. assert (A : after m [] = []) by (destruct m; try contradiction; reflexivity). rewrite A in *. destruct (IH [] f W4) as (pro & root & E1 & E2 & (E3 & E4) & E5 & E6). exists ((m, g) :: pro), root. split; [rewrite E1; reflexivity|]. split; [exact E2|].
      split; [|split; [exact E5 | destruct pro; exact E6]]. split; [|constructor; [exact K | exact E4]]. split; [split; assumption|]. destruct pro as [|(m', g') pro]; constructor; apply E3. }
    destruct m as [a b c []|a w|x|x|a v|x]; try (apply PR; exact I).
    + destruct (W2 I eq_refl).
    + destruct (inside_tree _ l a [] f (le_n _) W4) as (kids & w & K & Bw & [(_ & D2 & D3)|(D1 & _)]); [|destruct (D1 eq_refl)].
      exists [], (Elem a b c g kids w). split; [rewrite D2; reflexivity|]. split; [exact D3|]. split; [split; [exact I | constructor]|]. split; [exact I|]. apply tree_wf_elem. auto.
    + destruct W1 as (W1 & _). discriminate W1.
    + destruct W1 as (W1 & _). destruct (W1 eq_refl).
    + destruct W1 as (W1 & _). destruct (W1 eq_refl).
Qed.

(** ** Bytes *)
Lemma render_first_nil m : render_first [] m = render_markup m.
Proof. destruct m; reflexivity. Qed.
Lemma render_elem n atts tail g kids w : render_tree (Elem n atts tail g kids w) =
  n ++ render_attrs atts ++ tail ++ lit ">" ++ render_gap g ++ concat (map (fun p => render_tree (fst p) ++ render_gap (snd p)) kids) ++ lit "/" ++ n ++ w ++ lit ">".
Proof. cbn [render_tree]. do 5 f_equal. f_equal. f_equal. apply map_ext. intros (k, g'). reflexivity. Qed.
Lemma flats_render kids l f : Forall (fun p => forall g l f, render_body [] (flat (fst p) g ++ l) f = render_tree (fst p) ++ render_gap g ++ render_body [] l f) kids ->
  render_body [] (flats kids ++ l) f = concat (map (fun p => render_tree (fst p) ++ render_gap (snd p)) kids) ++ render_body [] l f.
Proof.
  intros F. induction kids as [|(k, g) r IH]; [reflexivity|]. inversion F as [|? ? F1 F2]; subst. unfold flats in *. cbn [map concat fst snd] in *. rewrite <- app_assoc, F1, (IH F2), <- !app_assoc. reflexivity.
Qed.
Lemma flat_render t : forall g l f, render_body [] (flat t g ++ l) f = render_tree t ++ render_gap g ++ render_body [] l f.
Proof.
  induction t as [m|n atts tail g0 kids w IH] using tree_ind'; intros g l f.
  - cbn [flat app render_body render_tree]. rewrite render_first_nil. reflexivity.
  - rewrite flat_elem, render_elem. cbn [app]. rewrite <- app_assoc. cbn [render_body app]. rewrite render_first_nil, (flats_render kids _ _ IH). cbn [render_body render_markup]. rewrite render_first_nil. cbn [render_markup].
    rewrite <- !app_assoc. reflexivity.
Qed.
Lemma root_render j t : render_body j (root_items t) (last_of t) =
  lead j (match t with Leaf m => m | Elem n a t _ _ _ => MStart n a t false end) ++ render_tree t.
Proof.
  destruct t as [m|n atts tail g kids w]; [reflexivity|]. rewrite render_elem. cbn [root_items last_of render_body]. unfold render_first. cbn [lead render_markup app].
  rewrite <- (app_nil_r (flats kids)), flats_render by (clear; induction kids; constructor; [apply flat_render | assumption]). cbn [render_body]. rewrite render_first_nil. cbn [render_markup]. rewrite <- !app_assoc. reflexivity.
Qed.
Definition to_doc (x : xdoc) : document := Doc (x_start x) (x_prolog x ++ root_items (x_root x)) (last_of (x_root x)) (x_epis x) (x_end x).
Lemma prolog_render l : forall l' f, render_body [] (l ++ l') f = concat (map (fun p => render_markup (fst p) ++ render_gap (snd p)) l) ++ render_body [] l' f.
Proof. induction l as [|(m, g) l IH]; intros l' f; [reflexivity|]. cbn [app render_body map concat fst snd]. rewrite render_first_nil, IH, <- !app_assoc. reflexivity. Qed.
Lemma body_render x : prolog_wf (junk_of (x_start x)) (x_prolog x) -> d_body (to_doc x) = render_xbody x.
Proof.
  intros (_ & P). unfold d_body, to_doc, render_xbody. cbn [d_start d_items d_final]. destruct (x_prolog x) as [|(m, g) l].
  - cbn [app map concat]. apply root_render.
  - cbn [app render_body map concat fst snd]. rewrite prolog_render, root_render.
    assert (LN : forall m', lead [] m' = []) by (intros []; reflexivity). rewrite LN. cbn [app]. inversion P as [|? ? P1 _]; subst. cbn [fst] in P1.
    unfold render_first. destruct m; try contradiction; cbn [lead]; rewrite <- !app_assoc; reflexivity.
Qed.
Lemma doc_render x : prolog_wf (junk_of (x_start x)) (x_prolog x) -> render (to_doc x) = render_x x.
Proof. intros P. unfold render, render_x. rewrite body_render by exact P. reflexivity. Qed.
Lemma doc_wf x : xwf x -> wf (to_doc x).
Proof.
  intros (W1 & W2 & W3 & W4 & W5). unfold wf. rewrite body_render by exact W2. cbn [to_doc d_start d_items d_final d_epis d_end]. split; [exact W1|]. split; [|exact W5].
  unfold root_junk in W4. revert W2 W4. generalize (junk_of (x_start x)). destruct (x_prolog x) as [|(m, g) l]; intros j (W2 & P) W4; [apply root_wf; assumption|].
  inversion P as [|? ? P1 P2]; subst. cbn [fst app wf_body] in *. destruct W2 as ((A & B) & F). assert (E : forall k : markup, match k with MComment _ | MPi _ _ => True | _ => False end -> after k [] = [] /\ (closes k -> False)) by (intros [] K; try contradiction; split; [reflexivity | intros [] | reflexivity | intros []]).
  destruct (E m P1) as (E1 & E2). rewrite E1. split; [exact A|]. split; [intros C; destruct (E2 C)|]. split; [exact B|]. clear - F P2 W3 W4 E.
  induction l as [|(m, g) l IH]; [apply root_wf; assumption|]. inversion F as [|? ? F1 F2]; subst. inversion P2 as [|? ? P1 P3]; subst. cbn [fst snd app wf_body] in *. destruct (E m P1) as (E1 & E2). rewrite E1.
  split; [apply F1|]. split; [intros C; destruct (E2 C)|]. split; [apply F1|]. exact (IH F2 P3).
Qed.
Lemma wf_tree_doc d : wf d -> exists x, xwf x /\ to_doc x = d.
Proof.
  intros (W1 & W2 & W3). destruct (top_tree _ _ _ W2) as (pro & root & E1 & E2 & P & R & T). exists (XDoc (d_start d) pro root (d_epis d) (d_end d)).
  assert (ED : to_doc (XDoc (d_start d) pro root (d_epis d) (d_end d)) = d) by (destruct d; unfold to_doc; cbn in *; congruence). split; [|exact ED].
  unfold xwf, root_junk. cbn [x_start x_prolog x_root x_epis x_end]. rewrite <- (body_render (XDoc (d_start d) pro root (d_epis d) (d_end d))) by exact P. rewrite ED. split; [exact W1|]. split; [exact P|]. split; [exact R|]. split; [exact T | exact W3].
Qed.

(** ** C117: exactly the trees are accepted. *)
Theorem C117_nested_exact : forall opts doc rest off, scans opts doc rest off -> ns_of opts = false ->
  ((exists s, runParser opts = Parsed s) <-> zlen doc < 2^31 /\ exists x, xwf x /\ xshows x (window doc off) rest).
Proof.
  intros opts doc rest off R N. rewrite (C84_acceptance_exact opts doc rest off R N). split; intros (L & H); (split; [exact L|]).
  - destruct H as (d & W & S). destruct (wf_tree_doc d W) as (x & X & <-). exists x. split; [exact X|]. unfold shows, xshows in *. rewrite doc_render in S by apply X. exact S.
  - destruct H as (x & X & S). exists (to_doc x). split; [exact (doc_wf x X)|]. unfold shows, xshows in *. rewrite doc_render by apply X. exact S.
Qed.
Print Assumptions C117_nested_exact.
(** With namespace awareness, accepted documents are trees, too. *)
Theorem C117_accepted_nested : forall opts doc rest off s, scans opts doc rest off -> runParser opts = Parsed s -> exists x, xwf x /\ xshows x (window doc off) rest.
Proof.
  intros opts doc rest off s R E. destruct (accepted _ _ _ _ _ R E) as (_ & d & W & S & _). destruct (wf_tree_doc d W) as (x & X & <-). exists x. split; [exact X|]. unfold shows, xshows in *. rewrite doc_render in S by apply X. exact S.
Qed.
Print Assumptions C117_accepted_nested.

(** ** Names *)
Definition names_below (k : Z) (st : list (list byte)) (t : tree) : list (list byte) := if k <? zlen st then [] else level_names (Z.to_nat (k - zlen st)) t.
Lemma flat_names k t : forall j st g l f, tree_wf j st t -> names_in k st (flat t g ++ l) f = names_below k st t ++ names_in k st l f.
Proof.
  induction t as [m|n atts tail g0 kids w IH] using tree_ind'; intros j st g l f T.
  - destruct T as (Lf & _). cbn [flat app names_in]. rewrite leafy_after by exact Lf. f_equal. unfold names_below, name_here.
    destruct (Z.ltb_spec k (zlen st)) as [H|H]; [destruct m; try reflexivity; replace (zlen st =? k) with false by lia; reflexivity|].
    destruct (Z.eq_dec k (zlen st)) as [-> |Nk]; [rewrite Z.sub_diag; cbn [Z.to_nat level_names]; destruct m; try reflexivity; rewrite Z.eqb_refl; reflexivity|].
    replace (Z.to_nat (k - zlen st)) with (S (Z.to_nat (k - zlen st - 1))) by lia. cbn [level_names children flat_map]. destruct m; try reflexivity. replace (zlen st =? k) with false by lia. reflexivity.
  - apply tree_wf_elem in T. destruct T as (_ & _ & _ & K). rewrite flat_elem. cbn [app names_in name_here after]. rewrite <- app_assoc. cbn [app].
    assert (FK : names_in k (n :: st) (flats kids ++ (MEnd n w, g) :: l) f = flat_map (fun p => names_below k (n :: st) (fst p)) kids ++ names_in k st l f).
    { clear - IH K. induction kids as [|(q, g') r IHr]; [reflexivity|]. inversion IH as [|? ? I1 I2]; subst. inversion K as [|? ? K1 K2]; subst. cbn [fst snd] in *. unfold flats in *. cbn [map concat flat_map fst]. rewrite <- !app_assoc, (I1 [] _ _ _ _ (proj1 K1)), (IHr I2 K2). reflexivity. }
    rewrite FK, app_assoc. f_equal. unfold names_below. rewrite zlen_cons. pose proof (zlen_nonneg st).
    assert (FN : forall F : tree -> list (list byte), flat_map (fun p : tree * gap => F (fst p)) kids = flat_map F (map fst kids)) by (intros F; clear; induction kids as [|(q, g') r IHr]; [reflexivity|]; cbn [map flat_map fst]; rewrite IHr; reflexivity).
    destruct (Z.ltb_spec k (zlen st)) as [H0|H0].
    + replace (zlen st =? k) with false by lia. replace (k <? zlen st + 1) with true by lia. cbn iota. cbn [app]. clear. induction kids as [|q r IHr]; [reflexivity | exact IHr].
    + destruct (Z.eq_dec k (zlen st)) as [-> |Nk].
      * rewrite Z.eqb_refl, Z.sub_diag. replace (zlen st <? zlen st + 1) with true by lia. cbn [Z.to_nat level_names own_name]. replace (flat_map (fun _ => []) kids) with (@nil (list byte)) by (clear; induction kids as [|q r IHr]; [reflexivity | exact IHr]). reflexivity.
      * replace (zlen st =? k) with false by lia. replace (k <? zlen st + 1) with false by lia. replace (Z.to_nat (k - zlen st)) with (S (Z.to_nat (k - (zlen st + 1)))) by lia. cbn [level_names children app]. apply FN.
Qed.
Lemma names_last k l f g : forall st, names_in k st (l ++ [(f, g)]) (MComment []) = names_in k st l f.
Proof. induction l as [|(m, g') l IH]; intros st; cbn [app names_in name_here]; [apply app_nil_r | rewrite IH; reflexivity]. Qed.
Lemma doc_names k x : 0 <= k -> xwf x -> names_of_level k (to_doc x) = level_names (Z.to_nat k) (x_root x).
Proof.
  intros K (_ & (_ & P) & _ & T & _). unfold names_of_level. cbn [to_doc d_items d_final]. rewrite <- (names_last k _ _ (GText [])), <- app_assoc.
  assert (E : root_items (x_root x) ++ [(last_of (x_root x), GText [])] = flat (x_root x) (GText [])) by (destruct (x_root x); reflexivity). rewrite E. clear E.
  assert (N : names_in k [] (flat (x_root x) (GText [])) (MComment []) = level_names (Z.to_nat k) (x_root x)).
  { rewrite <- (app_nil_r (flat _ _)), (flat_names k _ _ [] _ _ _ T). cbn [names_in name_here]. rewrite app_nil_r. unfold names_below. change (zlen (@nil (list byte))) with 0. replace (k <? 0) with false by lia. rewrite Z.sub_0_r. reflexivity. }
  clear T. induction (x_prolog x) as [|(m, g) l IH]; [exact N|]. inversion P as [|? ? P1 P2]; subst. cbn [fst app names_in] in *. destruct m; try contradiction; cbn [name_here after app]; exact (IH P2).
Qed.

(** ** C118: a tree is written, parsed, and walked over: the names of the children of
    its root are read. *)
Theorem C118_tree_names_partial : forall opts doc rest off x, scans opts doc rest off -> ns_of opts = false -> shallow_of opts = false -> zlen (doc ++ rest) < 2^20 ->
  xwf x -> xshows x (window doc off) rest ->
  exists s, runParser opts = Parsed s /\ names_walked opts s (doc ++ rest) (zlen (window doc off)) (level_names 1 (x_root x)).
Proof.
  intros opts doc rest off x R N Sh B X S. pose proof (zlen_app doc rest). pose proof (zlen_nonneg rest).
  assert (S' : shows (to_doc x) (window doc off) rest) by (unfold shows, xshows in *; rewrite doc_render by apply X; exact S).
  destruct (scan_ok opts doc rest off (to_doc x) R N ltac:(lia) (doc_wf x X) S') as (s & E & Q). exists s. split; [exact E|].
  change 1%nat with (Z.to_nat 1). rewrite <- (doc_names 1 x) by (lia || exact X). exact (names_core _ _ _ _ _ _ R Sh E B (doc_wf x X) S' Q).
Qed.
Print Assumptions C118_tree_names_partial.

(** ** A concrete tree *)
Lemma tag_wf n st e : match n with b :: t => isNameStartChar (b2z b) && forallb (fun c => isNameChar (b2z c)) t | [] => false end && (zlen n <=? 2047) && (prefix_from 1 n <=? 511) && (zlen st <=? 254) = true ->
  wf_markup [] st (MStart n [] [] e).
Proof.
  intros H. apply andb_true_iff in H. destruct H as (H & H4). apply andb_true_iff in H. destruct H as (H & H3). apply andb_true_iff in H. destruct H as (H1 & H2).
  split; [exists n; split; [reflexivity | apply name_ok; exact H1]|]. split; [unfold name_fits, max_name, max_prefix; change (zlen (@nil byte) + 1) with 1; lia|]. split; [unfold max_depth; lia|]. split; [constructor|]. split; [constructor|]. split; [vm_compute; discriminate | reflexivity].
Qed.
Lemma no_gap m st : wf_gap m st (GText []).
Proof. split; [constructor|]. split; [reflexivity|]. intros _. left. reflexivity. Qed.
Definition small_tree : xdoc :=
  XDoc (SPlain []) [] (Elem (lit "list") [] [] (GText [])
    [(Elem (lit "item") [] [] (GText []) [(Leaf (MStart (lit "sub") [] [] true), GText [])] [], GText []); (Leaf (MStart (lit "other") [] [] true), GText [])] []) [] [].
Definition small : string := "<list><item><sub/></item><other/></list>".
Example C117_example : xwf small_tree /\ render_x small_tree = bytes_of small /\ level_names 0 (x_root small_tree) = [lit "list"] /\
  level_names 1 (x_root small_tree) = [lit "item"; lit "other"] /\ level_names 2 (x_root small_tree) = [lit "sub"].
Proof.
  split; [|repeat split; vm_compute; reflexivity]. split; [exists x6c, (tl (render_xbody small_tree)); split; [vm_compute; reflexivity | discriminate]|]. split; [split; [exact I | constructor]|]. split; [exact I|]. split; [|reflexivity].
  unfold small_tree, root_junk. cbn [x_root x_prolog x_start junk_of]. apply tree_wf_elem. split; [apply tag_wf; reflexivity|]. split; [apply no_gap|]. split; [reflexivity|].
  constructor; [split; [|apply no_gap] | constructor; [split; [|apply no_gap] | constructor]]; cbn [fst snd].
  - apply tree_wf_elem. split; [apply tag_wf; reflexivity|]. split; [apply no_gap|]. split; [reflexivity|]. constructor; [|constructor]. split; [split; [reflexivity | apply tag_wf; reflexivity] | apply no_gap].
  - split; [reflexivity | apply tag_wf; reflexivity].
Qed.
Example C118_example : names_visited small (DirFirstChild :: tour true [2; 4]) = Some [lit "list"; lit "item"; lit "other"].
Proof. vm_compute. reflexivity. Qed.
