(** The description of namespace scopes in SpecScope.v: documents within its limits,
    and documents that declare prefixes on the root element only. *)
From Verif Require Import Lib SpecChar SpecDoc SpecScope.

(** Is this a start tag? *)
Definition is_start (m : markup) : bool := match m with MStart _ _ _ _ => true | _ => false end.
Definition is_fine (r : answer) : bool := match r with Fine _ => true | _ => false end.

(** ** One attribute, all attributes *)
Lemma declare_other k a : declares a = false -> plain_value a = true -> declare k a = Fine k.
Proof.
  unfold declares, plain_value, declare. destruct (ns_name (a_name a)); [|reflexivity]. destruct (is_default (a_name a)); [|discriminate]. intros _ P.
  destruct (a_value a) as [|b v]; [reflexivity|]. destruct b; try reflexivity. discriminate P.
Qed.
Lemma declare_prefix k a : declares a = true -> plain_value a = true -> declare k a =
  if reserved (local_of (a_name a)) then Refused
  else if (g_in k =? 0) && negb (zlen (g_decls k) =? 0) then Refused
  else if page <=? g_in k then Beyond
  else if same (a_value a) [] then Refused
  else Fine (Scope (g_tags k) (g_level k) (g_decls k ++ [local_of (a_name a)]) (g_in k + 1)).
Proof.
  unfold declares, plain_value, declare. destruct (ns_name (a_name a)); [|discriminate]. destruct (is_default (a_name a)); [discriminate|]. intros _ P.
  destruct (a_value a) as [|b v]; [reflexivity|]. destruct b; try reflexivity. discriminate P.
Qed.
Lemma declare_keeps k a k' : declare k a = Fine k' ->
  g_tags k' = g_tags k /\ g_level k' = g_level k /\ zlen (g_decls k') - zlen (g_decls k) = g_in k' - g_in k /\ 0 <= g_in k' - g_in k <= zlen (filter declares [a]).
Proof.
  assert (X : forall c : answer, (match a_value a with x26 :: _ => Beyond | _ => c end) = Fine k' -> c = Fine k') by (intros c; destruct (a_value a) as [|b v]; [auto|]; destruct b; auto; discriminate).
  unfold declare. pose proof (zlen_nonneg (filter declares [a])). destruct (ns_name (a_name a)) eqn:En; [|intros [= <-]; repeat split; lia]. intros K. apply X in K. clear X.
  destruct (is_default (a_name a)) eqn:Ed; [injection K as <-; repeat split; lia|]. destruct (reserved _); [discriminate|]. destruct (_ && _); [discriminate|]. destruct (page <=? _); [discriminate|].
  destruct (same _ _); [discriminate|]. injection K as <-. cbn [g_tags g_level g_decls g_in]. rewrite zlen_app. cbn [filter]. unfold declares. rewrite En, Ed. cbn [negb andb]. change (zlen [local_of (a_name a)]) with 1. change (zlen [a]) with 1. repeat split; lia.
Qed.
Lemma declare_all_keeps l : forall k k', declare_all k l = Fine k' ->
  g_tags k' = g_tags k /\ g_level k' = g_level k /\ zlen (g_decls k') - zlen (g_decls k) = g_in k' - g_in k /\ 0 <= g_in k' - g_in k <= zlen (filter declares l).
Proof.
  induction l as [|a l IH]; intros k k' K; cbn [declare_all] in K.
  - injection K as <-. change (zlen (filter declares [])) with 0. repeat split; lia.
  - destruct (declare k a) as [k1| |] eqn:E; cbn [also] in K; try discriminate. destruct (declare_keeps _ _ _ E) as (A1 & A2 & A3 & A4). destruct (IH _ _ K) as (B1 & B2 & B3 & B4).
    change (a :: l) with ([a] ++ l). rewrite filter_app, zlen_app. split; [congruence|]. split; [congruence|]. lia.
Qed.
Lemma declare_all_limits l : forall k, forallb plain_value l = true -> g_in k + zlen (filter declares l) <= page -> declare_all k l <> Beyond.
Proof.
  induction l as [|a l IH]; intros k P L; cbn [declare_all]; [discriminate|]. cbn [forallb] in P. apply andb_true_iff in P. destruct P as [P1 P2].
  change (a :: l) with ([a] ++ l) in L. rewrite filter_app, zlen_app in L. pose proof (zlen_nonneg (filter declares l)).
  destruct (declare k a) as [k1| |] eqn:E; cbn [also]; [|discriminate|].
  - destruct (declare_keeps _ _ _ E) as (A1 & A2 & A3 & A4). apply IH; [exact P2 | lia].
  - exfalso. destruct (declares a) eqn:Ea; [|rewrite (declare_other k a Ea P1) in E; discriminate E]. rewrite (declare_prefix k a Ea P1) in E.
    cbn [filter] in L. rewrite Ea in L. change (zlen [a]) with 1 in L. destruct (reserved _); [discriminate|]. destruct (_ && _); [discriminate|].
    destruct (Z.leb_spec page (g_in k)); [lia|]. destruct (same _ _); discriminate.
Qed.

(** ** Limits *)
Record Within (st : list (list byte)) (k : scope) : Prop := {
  w_level : zlen st <= g_level k <= zlen (g_tags k);
  w_first : st = [] -> k = no_scope;
  w_in : 0 <= g_in k <= zlen (g_decls k);
  w_tags : Forall (fun c => 0 <= c <= zlen (g_decls k)) (g_tags k) }.
Lemma znth_some {A} (l : list A) i : 0 <= i < zlen l -> exists x, znth l i = Some x /\ In x l.
Proof.
  intros H. unfold znth. destruct (Z.ltb_spec i 0); [lia|]. destruct (Z.leb_spec (zlen l) i); [lia|]. cbn [orb]. destruct (nth_error l (Z.to_nat i)) as [x|] eqn:E; [exists x; split; [reflexivity | exact (nth_error_In _ _ E)]|].
  apply nth_error_None in E. unfold zlen in H. lia.
Qed.
Lemma znth_In {A} (l : list A) i x : znth l i = Some x -> In x l.
Proof. unfold znth. destruct (_ || _); [discriminate|]. apply nth_error_In. Qed.
Lemma enter_within st k : Within st k -> exists k', enter (zlen st) k = Fine k' /\ g_level k' = zlen st /\ g_tags k' = g_tags k /\ g_decls k' = g_decls k /\
  0 <= g_in k' <= zlen (g_decls k) /\ (k' = k \/ exists i, znth (g_tags k) i = Some (g_in k')).
Proof.
  intros [L F I T]. unfold enter. destruct (Z.leb_spec (g_level k) (zlen st)) as [X|X].
  - exists k. split; [reflexivity|]. split; [lia|]. auto.
  - destruct st as [|n st]; [rewrite (F eq_refl) in X; change (zlen (@nil (list byte))) with 0 in X; cbn in X; lia|]. rewrite zlen_cons in *. pose proof (zlen_nonneg st).
    destruct (znth_some (g_tags k) (zlen st + 1 - 1)) as (c & E & Ic); [lia|]. rewrite E. eexists. split; [reflexivity|]. cbn [g_level g_tags g_decls g_in].
    rewrite Forall_forall in T. specialize (T c Ic). repeat (split; [first [reflexivity | lia]|]). right. eauto.
Qed.
Lemma start_within st k n j atts k' : Within st k -> start_tag j (zlen st) n atts k = Fine k' ->
  Within (n :: st) k' /\ (st <> [] -> Within st k') /\ zlen (g_decls k') <= zlen (g_decls k) + zlen (filter declares atts).
Proof.
  intros W K. unfold start_tag in K. destruct (xmlns_tag j n); [discriminate|]. destruct (enter_within st k W) as (k1 & E & L1 & T1 & D1 & I1 & _). rewrite E in K. cbn [also] in K.
  destruct (declare_all k1 atts) as [k2| |] eqn:E2; cbn [also] in K; try discriminate. destruct (declare_all_keeps _ _ _ E2) as (T2 & L2 & C2 & I2).
  unfold leave in K. destruct (page <=? g_level k2); [discriminate|]. destruct (qualified _ _ _ _); [|discriminate]. injection K as <-. destruct W as [L F I T].
  assert (G : forall st', zlen st <= zlen st' <= zlen st + 1 -> st' <> [] -> Within st' (Scope (g_tags k2 ++ [g_in k2]) (g_level k2 + 1) (g_decls k2) (g_in k2))).
  { intros st' B N. split; cbn [g_level g_tags g_decls g_in].
    - rewrite zlen_app. change (zlen [g_in k2]) with 1. rewrite L2, T2, L1, T1. lia.
    - intros ->. contradiction.
    - rewrite D1 in C2. lia.
    - rewrite D1 in C2. apply Forall_app. split; [|constructor; [lia | constructor]]. rewrite T2, T1. eapply Forall_impl; [|exact T]. cbv beta. lia. }
  split; [apply G; [rewrite zlen_cons; lia | discriminate]|]. split; [intros N; apply G; [lia | exact N]|]. cbn [g_decls]. rewrite D1 in C2. lia.
Qed.
Lemma start_limits st k n j atts : Within st k -> zlen st < page -> forallb plain_value atts = true -> zlen (g_decls k) + zlen (filter declares atts) <= page ->
  start_tag j (zlen st) n atts k <> Beyond.
Proof.
  intros W D P C. unfold start_tag. destruct (xmlns_tag j n); [discriminate|]. destruct (enter_within st k W) as (k1 & E & L1 & T1 & D1 & I1 & _). rewrite E. cbn [also].
  pose proof (declare_all_limits atts k1 P ltac:(lia)) as N. destruct (declare_all k1 atts) as [k2| |] eqn:E2; cbn [also]; [|discriminate | contradiction].
  destruct (declare_all_keeps _ _ _ E2) as (T2 & L2 & C2 & I2). unfold leave. destruct (Z.leb_spec page (g_level k2)); [lia|]. destruct (qualified _ _ _ _); discriminate.
Qed.
Lemma stays m st : is_start m = false -> (closes m -> after m st <> []) -> forall k, Within st k -> Within (after m st) k.
Proof.
  intros S C k [L F I T]. destruct m as [n a t e|n w|y|y|n v|y]; try discriminate S; cbn [after closes] in *; try (split; assumption).
  specialize (C Logic.I). split; try assumption; [|intros; contradiction]. destruct st as [|x st]; [contradiction|]. cbn [tl] in *. rewrite zlen_cons in L. lia.
Qed.
Lemma step_within m st j k k' : wf_markup j st m -> (closes m -> after m st <> []) -> Within st k -> on_markup j (zlen st) m k = Fine k' -> Within (after m st) k'.
Proof.
  intros _ C W K. destruct (is_start m) eqn:S.
  - destruct m as [n a t e| | | | |]; try discriminate S. cbn [on_markup after closes] in *. destruct (start_within _ _ _ _ _ _ W K) as (A & B & _).
    destruct e; [apply B; apply C; exact I | exact A].
  - assert (E : on_markup j (zlen st) m k = Fine k) by (destruct m; [discriminate S | reflexivity..]). rewrite E in K. injection K as <-. apply stays; assumption.
Qed.
Lemma decls_cons x l : concat (map decls_of (x :: l)) = decls_of x ++ concat (map decls_of l).
Proof. reflexivity. Qed.
Lemma scopes_limits l : forall j st f k, wf_body j st l f -> Within st k -> shallow_body st l f = true ->
  zlen (g_decls k) + zlen (concat (map decls_of (tags j l f))) <= page -> forallb (fun x : tag => forallb plain_value (snd x)) (tags j l f) = true ->
  scopes j st l f k <> Beyond.
Proof.
  assert (M : forall j st m k r, Within st k -> shallow st m = true -> zlen (g_decls k) + zlen (concat (map decls_of (tag_of j m ++ r))) <= page ->
    forallb (fun x : tag => forallb plain_value (snd x)) (tag_of j m ++ r) = true ->
    on_markup j (zlen st) m k <> Beyond /\ forall k', on_markup j (zlen st) m k = Fine k' -> zlen (g_decls k') + zlen (concat (map decls_of r)) <= page).
  { intros j st m k r W S C P. destruct m as [n a t e|n w|y|y|n v|y]; cbn [on_markup tag_of app] in *; try (split; [discriminate|]; intros k' [= <-]; exact C).
    cbn [map concat forallb] in C, P. apply andb_true_iff in P. destruct P as [P _]. rewrite zlen_app in C. unfold decls_of in C at 1. cbn [snd] in *. pose proof (zlen_nonneg (concat (map decls_of r))).
    split; [apply start_limits; [exact W | cbn [shallow] in S; lia | exact P | lia]|].
    intros k' K. destruct (start_within _ _ _ _ _ _ W K) as (_ & _ & B). lia. }
  induction l as [|[m g] l IH]; intros j st f k Hw W S C P; cbn [scopes wf_body shallow_body tags] in *.
  - rewrite <- (app_nil_r (tag_of j f)) in C, P. apply (M j st f k [] W S C P).
  - apply andb_true_iff in S. destruct S as [S1 S2]. destruct Hw as (Hm & Hc & _ & Hb). destruct (M j st m k _ W S1 C P) as (N & B).
    destruct (on_markup j (zlen st) m k) as [k'| |] eqn:E; cbn [also]; [|discriminate | contradiction].
    rewrite forallb_app in P. apply andb_true_iff in P. apply (IH [] _ f k' Hb (step_within _ _ _ _ _ Hm Hc W E) S2 (B _ eq_refl) (proj2 P)).
Qed.
Lemma within_no_scope : Within [] no_scope.
Proof. split; cbn; [lia | reflexivity | lia | constructor]. Qed.
Theorem within_answer d : wf d -> within_limits d = true -> scopes_of d <> Beyond.
Proof.
  intros (_ & W & _) L. unfold within_limits in L. apply andb_true_iff in L. destruct L as [L P]. apply andb_true_iff in L. destruct L as [S C].
  apply (scopes_limits _ _ _ _ _ W within_no_scope S); [change (zlen (g_decls no_scope)) with 0; unfold tags_of in C; lia | exact P].
Qed.

(** ** Declarations on the root element only *)
(** After the root: all of [ds] declared and in scope. *)
Record Fixed (ds : list (list byte)) (st : list (list byte)) (k : scope) : Prop := {
  f_within : Within st k;
  f_decls : g_decls k = ds;
  f_in : g_in k = zlen ds;
  f_tags : Forall (fun c => c = zlen ds) (g_tags k) }.
Lemma in_scope_all k : g_in k = zlen (g_decls k) -> in_scope k = g_decls k.
Proof. intros E. unfold in_scope. rewrite E. unfold zlen. rewrite Nat2Z.id. apply firstn_all. Qed.
Lemma declare_none l : forall k, forallb plain_value l = true -> filter declares l = [] -> declare_all k l = Fine k.
Proof.
  induction l as [|a l IH]; intros k P E; cbn [declare_all]; [reflexivity|]. cbn [forallb filter] in *. apply andb_true_iff in P. destruct P as [P1 P2].
  destruct (declares a) eqn:Ea; [discriminate E|]. rewrite (declare_other k a Ea P1). cbn [also]. apply IH; assumption.
Qed.
Lemma declare_root l : forall k, forallb plain_value l = true -> g_in k = zlen (g_decls k) -> zlen (g_decls k) + zlen (filter declares l) <= page ->
  declare_all k l = if forallb declarable (filter declares l)
    then Fine (Scope (g_tags k) (g_level k) (g_decls k ++ map (fun a => local_of (a_name a)) (filter declares l)) (g_in k + zlen (filter declares l))) else Refused.
Proof.
  induction l as [|a l IH]; intros k P E L; cbn [declare_all filter].
  - cbn [forallb map]. rewrite app_nil_r. change (zlen (@nil attr)) with 0. rewrite Z.add_0_r. destruct k; reflexivity.
  - cbn [forallb] in P. apply andb_true_iff in P. destruct P as [P1 P2]. cbn [filter] in L. destruct (declares a) eqn:Ea.
    + rewrite (declare_prefix k a Ea P1). cbn [forallb]. unfold declarable at 1. rewrite zlen_cons in L. pose proof (zlen_nonneg (filter declares l)).
      destruct (reserved _); [reflexivity|]. destruct (Z.eqb_spec (g_in k) 0) as [X|X].
      * assert (Y : (zlen (g_decls k) =? 0) = true) by lia. rewrite Y. cbn [negb andb]. destruct (Z.leb_spec page (g_in k)); [lia|]. destruct (same _ _); [reflexivity|]. cbn [negb andb also].
        rewrite IH; [|exact P2 | cbn [g_in g_decls]; rewrite zlen_app; change (zlen [local_of (a_name a)]) with 1; lia | cbn [g_in g_decls]; rewrite zlen_app; change (zlen [local_of (a_name a)]) with 1; lia].
        cbn [g_tags g_level g_decls g_in map]. rewrite <- app_assoc. cbn [app]. rewrite zlen_cons. replace (g_in k + 1 + zlen (filter declares l)) with (g_in k + (zlen (filter declares l) + 1)) by lia. reflexivity.
      * cbn [andb]. destruct (Z.leb_spec page (g_in k)); [lia|]. destruct (same _ _); [reflexivity|]. cbn [negb andb also].
        rewrite IH; [|exact P2 | cbn [g_in g_decls]; rewrite zlen_app; change (zlen [local_of (a_name a)]) with 1; lia | cbn [g_in g_decls]; rewrite zlen_app; change (zlen [local_of (a_name a)]) with 1; lia].
        cbn [g_tags g_level g_decls g_in map]. rewrite <- app_assoc. cbn [app]. rewrite zlen_cons. replace (g_in k + 1 + zlen (filter declares l)) with (g_in k + (zlen (filter declares l) + 1)) by lia. reflexivity.
    + rewrite (declare_other k a Ea P1). cbn [also]. apply IH; [exact P2 | exact E | exact L].
Qed.
Lemma fixed_enter ds st k : Fixed ds st k -> exists k', enter (zlen st) k = Fine k' /\ g_level k' = zlen st /\ g_tags k' = g_tags k /\ g_decls k' = ds /\ g_in k' = zlen ds.
Proof.
  intros [W D I T]. destruct (enter_within st k W) as (k1 & E & L1 & T1 & D1 & I1 & X). exists k1. split; [exact E|]. split; [exact L1|]. split; [exact T1|]. split; [congruence|].
  destruct X as [-> |(i & X)]; [exact I|]. rewrite Forall_forall in T. apply T. exact (znth_In _ _ _ X).
Qed.
Lemma fixed_tag ds st k j n atts : Fixed ds st k -> zlen st < page -> forallb plain_value atts = true -> filter declares atts = [] ->
  if tag_ok ds (j, n, atts) then exists k', start_tag j (zlen st) n atts k = Fine k' /\ Fixed ds (n :: st) k' /\ (st <> [] -> Fixed ds st k')
  else start_tag j (zlen st) n atts k = Refused.
Proof.
  intros F L P N. destruct (fixed_enter ds st k F) as (k1 & E & L1 & T1 & D1 & I1). pose proof (start_within st k n j atts) as SW.
  unfold tag_ok. unfold start_tag in *. destruct (xmlns_tag j n); cbn [negb andb]; [reflexivity|].
  rewrite E in *. cbn [also] in *. rewrite (declare_none _ k1 P N) in *. cbn [also] in *. unfold leave in *. destruct (Z.leb_spec page (g_level k1)); [lia|].
  unfold qualified in *. rewrite (in_scope_all k1) in * by congruence. rewrite D1 in *. destruct (covered ds j n (prefixed_names atts)); [|reflexivity].
  eexists. split; [reflexivity|]. destruct (SW _ (f_within _ _ _ F) eq_refl) as (A & B & _).
  assert (T2 : Forall (fun c => c = zlen ds) (g_tags k1 ++ [g_in k1])) by (apply Forall_app; split; [rewrite T1; exact (f_tags _ _ _ F) | constructor; [exact I1 | constructor]]).
  split; [|intros Y]; (split; [first [exact A | exact (B Y)] | reflexivity | exact I1 | exact T2]).
Qed.
Lemma root_tag j n atts : forallb plain_value atts = true -> zlen (filter declares atts) <= page ->
  let ds := map (fun a => local_of (a_name a)) (filter declares atts) in
  if forallb declarable (filter declares atts) && tag_ok ds (j, n, atts) then exists k', start_tag j 0 n atts no_scope = Fine k' /\ Fixed ds [n] k'
  else start_tag j 0 n atts no_scope = Refused.
Proof.
  intros P C ds. pose proof (start_within [] no_scope n j atts) as SW. change (zlen (@nil (list byte))) with 0 in SW.
  unfold tag_ok. unfold start_tag in *. destruct (xmlns_tag j n); cbn [negb andb]; [rewrite andb_false_r; reflexivity|]. change (enter 0 no_scope) with (Fine no_scope) in *. cbn [also] in *.
  assert (R := declare_root atts no_scope P eq_refl C). cbn [no_scope g_tags g_level g_decls g_in app] in R. fold ds in R. rewrite R in *. clear R.
  destruct (forallb declarable (filter declares atts)); [|reflexivity]. cbn [also andb] in *. unfold leave in *. cbn [g_level g_tags g_decls g_in] in *. change (page <=? 0) with false in *. cbv beta iota in *.
  assert (Ed : zlen ds = zlen (filter declares atts)) by (unfold ds, zlen; rewrite map_length; reflexivity).
  unfold qualified in *. rewrite (in_scope_all (Scope [] 0 ds _)) in * by (cbn [g_in g_decls]; lia). cbn [g_decls] in *.
  destruct (covered ds j n (prefixed_names atts)); [|reflexivity]. eexists. split; [reflexivity|]. destruct (SW _ within_no_scope eq_refl) as (A & _ & _).
  split; [exact A | reflexivity | cbn [g_in]; lia | cbn [g_tags app]; constructor; [lia | constructor]].
Qed.
Lemma fixed_stays ds m st k : is_start m = false -> (closes m -> after m st <> []) -> Fixed ds st k -> Fixed ds (after m st) k.
Proof. intros S C [W D I T]. split; try assumption. apply stays; assumption. Qed.
Lemma fixed_scopes ds l : forall j st f k, wf_body j st l f -> Fixed ds st k -> st <> [] -> shallow_body st l f = true ->
  forallb (fun x : tag => forallb plain_value (snd x)) (tags j l f) = true -> forallb (fun x : tag => zlen (decls_of x) =? 0) (tags j l f) = true ->
  is_fine (scopes j st l f k) = forallb (tag_ok ds) (tags j l f).
Proof.
  assert (Z0 : forall x : tag, (zlen (decls_of x) =? 0) = true -> filter declares (snd x) = []) by (intros x X; unfold decls_of in X; destruct (filter declares (snd x)); [reflexivity|]; rewrite zlen_cons in X; pose proof (zlen_nonneg l0); lia).
  induction l as [|[m g] l IH]; intros j st f k Hw F N S P R; cbn [scopes wf_body shallow_body tags] in *.
  - destruct f as [n a t e|n w|y|y|n v|y]; cbn [on_markup tag_of shallow forallb] in *; try reflexivity. cbn [snd] in P. rewrite andb_true_r in *.
    pose proof (fixed_tag ds st k j n a F ltac:(lia) P (Z0 _ R)) as X. destruct (tag_ok ds (j, n, a)); [destruct X as (k' & -> & _); reflexivity | rewrite X; reflexivity].
  - apply andb_true_iff in S. destruct S as [S1 S2]. destruct Hw as (Hm & Hc & _ & Hb). rewrite forallb_app in P, R. apply andb_true_iff in P, R. destruct P as [P1 P2]. destruct R as [R1 R2]. rewrite forallb_app.
    destruct (is_start m) eqn:Em.
    + destruct m as [n a t e| | | | |]; try discriminate Em. cbn [on_markup tag_of shallow forallb] in *. cbn [snd] in P1. rewrite andb_true_r in *.
      pose proof (fixed_tag ds st k j n a F ltac:(lia) P1 (Z0 _ R1)) as X. destruct (tag_ok ds (j, n, a)); [destruct X as (k' & -> & X1 & X2) | rewrite X; reflexivity].
      cbn [also andb]. destruct e; cbn [after] in *; apply IH; auto; discriminate.
    + assert (E : on_markup j (zlen st) m k = Fine k) by (destruct m; [discriminate Em | reflexivity..]). rewrite E. cbn [also].
      replace (tag_of j m) with (@nil tag) by (destruct m; [discriminate Em | reflexivity..]). cbn [forallb andb]. apply IH; auto; [apply fixed_stays; assumption|].
      destruct m; try discriminate Em; cbn [after closes] in *; auto.
Qed.
Lemma root_scopes l : forall j f, wf_body j [] l f -> shallow_body [] l f = true -> zlen (concat (map decls_of (tags j l f))) <= page ->
  forallb (fun x : tag => forallb plain_value (snd x)) (tags j l f) = true -> forallb (fun x : tag => zlen (decls_of x) =? 0) (tl (tags j l f)) = true ->
  is_fine (scopes j [] l f no_scope) = match tags j l f with [] => true | root :: _ => forallb declarable (decls_of root) && forallb (tag_ok (map (fun a => local_of (a_name a)) (decls_of root))) (tags j l f) end.
Proof.
  induction l as [|[m g] l IH]; intros j f Hw S C P R; cbn [scopes wf_body shallow_body tags] in *.
  - destruct f as [n a t e|n w|y|y|n v|y]; cbn [on_markup tag_of forallb] in *; try reflexivity. cbn [snd] in P. rewrite andb_true_r in *. cbn [map concat] in C. rewrite app_nil_r in C.
    pose proof (root_tag j n a P C) as X. unfold decls_of. cbn [snd]. change (zlen (@nil (list byte))) with 0. cbv zeta in X. destruct (_ && _); [destruct X as (k' & -> & _); reflexivity | rewrite X; reflexivity].
  - apply andb_true_iff in S. destruct S as [S1 S2]. destruct Hw as (Hm & Hc & _ & Hb). destruct (is_start m) eqn:Em.
    + destruct m as [n a t e| | | | |]; try discriminate Em. cbn [on_markup tag_of app tl forallb map concat] in *. apply andb_true_iff in P. destruct P as [P1 P2]. cbn [snd] in P1.
      rewrite zlen_app in C. pose proof (zlen_nonneg (concat (map decls_of (tags [] l f)))). unfold decls_of in C at 1. cbn [snd] in C.
      pose proof (root_tag j n a P1 ltac:(lia)) as X. cbv zeta in X. rewrite andb_assoc. unfold decls_of at 1 2. cbn [snd]. change (zlen (@nil (list byte))) with 0.
      destruct (_ && _); [destruct X as (k' & -> & X) | rewrite X; reflexivity]. cbn [also andb].
      destruct e; cbn [after closes] in *; [exfalso; exact (Hc I eq_refl)|]. apply (fixed_scopes _ l [] [n] f k'); auto; discriminate.
    + assert (E : on_markup j (zlen (@nil (list byte))) m no_scope = Fine no_scope) by (destruct m; [discriminate Em | reflexivity..]). rewrite E. cbn [also].
      assert (ET : tag_of j m = []) by (destruct m; [discriminate Em | reflexivity..]). rewrite ET in *. cbn [app] in *. clear ET E.
      destruct m; try discriminate Em; cbn [after closes] in *; apply IH; assumption.
Qed.
Theorem root_only_answer d : wf d -> within_limits d = true -> root_only d = true -> is_fine (scopes_of d) = root_scope_ok d.
Proof.
  intros (_ & W & _) L R. unfold within_limits in L. apply andb_true_iff in L. destruct L as [L P]. apply andb_true_iff in L. destruct L as [S C].
  apply root_scopes; try assumption. unfold tags_of in C. lia.
Qed.
