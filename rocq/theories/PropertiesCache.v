(** The location cache, its tables under a navigator, and the printed states, in every
    mode: nothing is assumed of the document but that Parse accepted it. *)
From Verif Require Import Lib XmlChar Buffer BufferProofs SpecBuffer Reader ParserState ParserPrim ParserProc ParserMain Output SpecOutput SpecParse ParserWp ParserOutcome ParserFrame
  SpecToken SpecNav Nav SpecDoc SpecLoc DocBase DocLoc NavParsed PropertiesParse PropertiesQuirks PropertiesDoc PropertiesPages PropertiesTree PropertiesOutput ParserLog ParserTree ParserCount.

Lemma parsed_done opts s : Forall go_value opts -> runParser opts = Parsed s ->
  exists w, holds (s_vtd s) w /\ tree_like (start_tags 0 (read_tokens w)) /\ start_tags 0 (read_tokens w) <> [] /\
    lcIs (if shallow_of opts then lc0 else lc_final (read_tokens w)) s.
Proof.
  intros F E. pose proof (new_spec opts F) as P. pose proof (run_spec opts F) as R. rewrite E in R. destruct R as (cf & s0 & En & R1 & R2 & R3 & _).
  unfold runParser in E. rewrite En in *. destruct P as (_ & _ & _ & _ & _ & P5 & P6).
  destruct (parse cf s0) as [[] s'|? ?|?|] eqn:Ep; try discriminate E. injection E as ->.
  destruct (parse_log cf s0 s R1 R2 R3 P6 Ep) as (w & H1 & H2 & H3 & H4). rewrite P5 in H4. exists w. split; [exact H1|]. split; [exact H2|]. split; [|exact H4].
  intros X. unfold lastD, tags_of in H3. rewrite X in H3. cbn in H3. lia.
Qed.

(** ** C57: every mode. *)
Lemma parsed_size opts s : Forall go_value opts -> runParser opts = Parsed s -> b_size (s_vtd s) <= snd (window_of opts) + 1 /\ b_size (s_vtd s) <= 2^31.
Proof.
  intros F E. pose proof (new_spec opts F) as P. pose proof (run_spec opts F) as R. rewrite E in R. destruct R as (cf & s0 & En & R1 & R2 & R3 & _).
  unfold runParser in E. rewrite En in *. destruct P as (_ & _ & P2 & _ & _ & _ & P6).
  destruct (parse cf s0) as [[] s'|? ?|?|] eqn:Ep; try discriminate E. injection E as ->.
  destruct (parse_count cf s0 s R1 R2 R3 P6 Ep) as (X & Y). rewrite P2 in *. lia.
Qed.
Theorem C57_token_count : forall opts s, Forall go_value opts -> runParser opts = Parsed s ->
  exists w, exports s w /\ zlen w <= snd (window_of opts) + 1.
Proof.
  intros opts s F E. destruct (parsed_done opts s F E) as (w & Hw & _). destruct (parsed_size opts s F E) as (B & B').
  pose proof (holds_size _ _ Hw) as Sz. exists w. split; [apply holds_exports; [exact Hw|]|]; lia.
Qed.
Print Assumptions C57_token_count.

(** ** C51: the tokens are read back by the field formulas of the token format. *)
Theorem C51_location_cache : forall opts s, Forall go_value opts -> shallow_of opts = false -> runParser opts = Parsed s ->
  exists w, exports s w /\ zlen w = b_size (s_vtd s) /\
    let tags := start_tags 0 (read_tokens w) in
    tree_like tags /\ hd_error tags = Some (s_rootIndex s, 0) /\
    toArray (s_l1 s) = Some (Ok (level 1 0 tags)) /\ toArray (s_l2 s) = Some (Ok (level 2 0 tags)) /\
    toArray (s_l3 s) = Some (Ok (level 3 0 tags)) /\ toArray (s_l4 s) = Some (Ok (level 4 0 tags)) /\
    toArray (s_l5 s) = Some (Ok (last_level 5 tags)).
Proof.
  intros opts s F Sh E. destruct (parsed_size opts s F E) as (_ & B). destruct (parsed_done opts s F E) as (w & Hw & T & N & HL). rewrite Sh in HL. pose proof (holds_size _ _ Hw) as Sz.
  exists w. split; [apply holds_exports; [exact Hw | lia]|]. split; [congruence|]. cbv zeta.
  pose proof (start_tags_length (read_tokens w) 0) as SL. rewrite read_tokens_len in SL.
  destruct (final_levels (read_tokens w) T ltac:(rewrite read_tokens_len; lia)) as (Q0 & Q1 & Q2 & Q3 & Q4 & Q5).
  destruct HL as (L0 & _ & _ & _ & _ & _ & H1 & H2 & H3 & H4 & H5). rewrite Q0 in L0. rewrite Q1 in H1. rewrite Q2 in H2. rewrite Q3 in H3. rewrite Q4 in H4. rewrite Q5 in H5.
  set (tags := start_tags 0 (read_tokens w)) in *.
  assert (LL : zlen (last_level 5 tags) <= zlen tags) by (rewrite last_length; unfold count, zlen; clear; induction tags as [|e l IH]; cbn [filter]; [lia|]; destruct (_ =? _); cbn [length]; lia).
  assert (LB : forall k, zlen (level k 0 tags) <= zlen tags) by (intros; apply level_length).
  split; [exact T|]. split. { rewrite L0. destruct tags as [|(i, e) r]; [contradiction|]. destruct T as (-> & _). reflexivity. }
  repeat split; apply holds_exports; try assumption; try (eapply Z.le_lt_trans; [apply LB|]); lia.
Qed.
Print Assumptions C51_location_cache.

(** ** C52: with the other cache depths all tables stay empty. *)
Theorem C52_shallow_empty : forall opts s, Forall go_value opts -> shallow_of opts = true -> runParser opts = Parsed s ->
  s_rootIndex s = 0 /\
  toArray (s_l1 s) = Some (Ok []) /\ toArray (s_l2 s) = Some (Ok []) /\ toArray (s_l3 s) = Some (Ok []) /\ toArray (s_l4 s) = Some (Ok []) /\
  toArray (s_l5 s) = Some (Ok []).
Proof.
  intros opts s F Sh E. destruct (parsed_done opts s F E) as (w & Hw & T & N & HL). rewrite Sh in HL.
  destruct HL as (L0 & _ & _ & _ & _ & _ & H1 & H2 & H3 & H4 & H5). split; [exact L0|]. repeat split; apply holds_exports; try assumption; cbn; lia.
Qed.
Print Assumptions C52_shallow_empty.

(** ** C98, C99 *)
Lemma parsed_cached opts s : Forall go_value opts -> shallow_of opts = false -> runParser opts = Parsed s -> b_size (s_vtd s) < 2^28 ->
  exists w, exports s w /\ cached opts s (b_size (s_vtd s)) (start_tags 0 (read_tokens w)).
Proof.
  intros F Sh E B. destruct (parsed_done opts s F E) as (w & Hw & T & N & HL). rewrite Sh in HL. pose proof (holds_size _ _ Hw) as Sz.
  exists w. split; [apply holds_exports; [exact Hw | lia]|].
  pose proof (start_tags_length (read_tokens w) 0) as SL. rewrite read_tokens_len in SL.
  destruct (final_levels (read_tokens w) T ltac:(rewrite read_tokens_len; lia)) as (Q0 & Q1 & Q2 & _).
  destruct HL as (L0 & _ & _ & _ & _ & _ & (e1 & H1) & (e2 & H2) & _). rewrite Q0 in L0. rewrite Q1 in H1. rewrite Q2 in H2.
  assert (HB : forall e, In e (start_tags 0 (read_tokens w)) -> 0 <= fst e < b_size (s_vtd s)) by (intros e He; apply start_tags_in in He; rewrite read_tokens_len in He; lia).
  set (tags := start_tags 0 (read_tokens w)) in *.
  split. { rewrite L0. destruct tags as [|(i, e) r]; [contradiction|]. destruct T as (-> & _). reflexivity. }
  split; [lia|]. split; [exact HB|].
  destruct (ends_bufs opts s F (or_introl E)) as (_ & cf & X & Lx & S). rewrite S, Sh, Lx in X. rewrite <- vtd_rows. cbn [nth]. injection X as X0 X1 X2 X3 X4 X5.
  split; [exists e1 | exists e2]; (split; [assumption|]); f_equal; [exact (eq_trans (eq_sym (rp_exp _ _ _ H1)) X1) | exact (eq_trans (eq_sym (rp_exp _ _ _ H2)) X2)].
Qed.
Theorem C98_children : forall opts s, Forall go_value opts -> shallow_of opts = false -> runParser opts = Parsed s -> b_size (s_vtd s) < 2^28 ->
  exists w, exports s w /\
    let tags := start_tags 0 (read_tokens w) in
    let kids := of_depth 1 tags in
    zlen kids <= nth 1 (page_sizes (snd (window_of opts))) 0 ->
    forall o l depth enc ns bytes n, newVtdNav (s_rootIndex s) o l depth enc ns bytes (s_vtd s) (s_l1 s) (s_l2 s) (s_l3 s) = Ok n -> 2 <= depth ->
    exists n1 n2 r, hd_error tags = Some (r, 0) /\
      visit n (DirFirstChild :: tour true kids) = Some (n1, r :: kids) /\ toElement n1 DirNextSibling = (n1, Ok false) /\
      visit n (DirFirstChild :: tour false kids) = Some (n2, r :: rev kids) /\ toElement n2 DirPrevSibling = (n2, Ok false).
Proof.
  intros opts s F Sh E B. destruct (parsed_cached opts s F Sh E B) as (w & X & C). exists w. split; [exact X|]. exact (children_core _ _ _ _ C B).
Qed.
Print Assumptions C98_children.
Theorem C99_first_child : forall opts s, Forall go_value opts -> shallow_of opts = false -> runParser opts = Parsed s -> b_size (s_vtd s) < 2^28 ->
  exists w, exports s w /\
    let tags := start_tags 0 (read_tokens w) in
    zlen (of_depth 1 tags) <= nth 1 (page_sizes (snd (window_of opts))) 0 ->
    forall a i t, tags = a ++ (i, 1) :: t ->
    forall o l depth enc ns bytes n, newVtdNav (s_rootIndex s) o l depth enc ns bytes (s_vtd s) (s_l1 s) (s_l2 s) (s_l3 s) = Ok n -> 3 <= depth ->
    exists n1 r, visit n (DirFirstChild :: path (length (of_depth 1 a))) = Some (n1, r :: of_depth 1 a ++ [i]) /\
      match t with
      | (i', 2) :: _ => zlen (of_depth 2 a) < nth 2 (page_sizes (snd (window_of opts))) 0 ->
                        exists n2, toElement n1 DirFirstChild = (n2, Ok true) /\ getCurrentIndex n2 = Ok i'
      | _ => snd (toElement n1 DirFirstChild) <> Ok true
      end.
Proof.
  intros opts s F Sh E B. destruct (parsed_cached opts s F Sh E B) as (w & X & C). exists w. split; [exact X|]. exact (first_child_core _ _ _ _ C B).
Qed.
Print Assumptions C99_first_child.

(** A namespace-aware parse with a character reference in a declaration, which the
    acceptance theorems leave out *)
Definition cache_doc : list byte := bytes_of "<r xmlns:p='u&amp;v'><p:b><c/></p:b>t<d/></r>".
Definition cache_opts : list popt := [OXmlDoc (Some cache_doc); ONs true; OLcDepth 5].
Example cache_opts_go : Forall go_value cache_opts /\ shallow_of cache_opts = false.
Proof. split; [|reflexivity]. constructor; [vm_compute; reflexivity|]. constructor; [exact I|]. constructor; [cbn [go_value]; lia | constructor]. Qed.
Example C57_example : exists s w, runParser [OXmlDoc (Some (bytes_of "<a><b/></a>")); ONs true] = Parsed s /\ exports s w /\ zlen w = 3.
Proof. eexists. eexists. split; [vm_compute; reflexivity|]. split; vm_compute; reflexivity. Qed.
Example C51_example : exists s, runParser cache_opts = Parsed s /\ b_size (s_vtd s) = 8 /\ s_rootIndex s = 1 /\
  toArray (s_l1 s) = Some (Ok [node_entry 4 0; leaf_entry 7]) /\ toArray (s_l2 s) = Some (Ok [leaf_entry 5]) /\ toArray (s_l3 s) = Some (Ok []).
Proof. eexists. split; [vm_compute; reflexivity|]. vm_compute. repeat split. Qed.
Example C52_example : exists s, runParser [OXmlDoc (Some cache_doc); ONs true; OLcDepth 3] = Parsed s /\ shallow_of [OXmlDoc (Some cache_doc); ONs true; OLcDepth 3] = true.
Proof. eexists. split; [vm_compute; reflexivity | reflexivity]. Qed.
Example C98_ns_example : exists s n, runParser cache_opts = Parsed s /\
  newVtdNav (s_rootIndex s) 0 (zlen cache_doc) 8 0 true (Some cache_doc) (s_vtd s) (s_l1 s) (s_l2 s) (s_l3 s) = Ok n /\
  match visit n (DirFirstChild :: tour true [4; 7]) with Some (_, l) => l = [1; 4; 7] | None => False end /\
  match visit n [DirFirstChild; DirFirstChild; DirFirstChild] with Some (_, l) => l = [1; 4; 5] | None => False end.
Proof. eexists. eexists. split; [vm_compute; reflexivity|]. split; [vm_compute; reflexivity|]. split; vm_compute; reflexivity. Qed.

Local Open Scope string_scope.
(** ** C107: the numbers of the printed states follow [next_states]. *)
Inductive printed : Z -> list string -> Prop :=
| pr_last p b : printed p ["Starting process state: " ++ dec p; b]
| pr_next p q b ls : In q (next_states p) -> printed q ls -> printed p (("Starting process state: " ++ dec p) :: b :: ls).
Lemma follows_code a b : follows a b -> In (stateCode b) (next_states (stateCode a)).
Proof. unfold follows. destruct a; cbn [followers In]; intros H; repeat (destruct H as [<-|H]; [cbn; tauto|]); contradiction. Qed.
Lemma loop_printed cf n : forall ps s, printed (stateCode ps) (out_lines (fst (parseLoopE cf (S n) ps s))).
Proof.
  induction n as [|n IH]; intros ps s; cbn [parseLoopE]; pose proof (step_follows cf ps s) as St; unfold po in St.
  - destruct (step cf ps s) as [ps' s'|e s'|w|]; cbn [fst out_lines]; apply pr_last.
  - destruct (step cf ps s) as [ps' s'|e s'|w|]; cbn [fst out_lines]; try apply pr_last. specialize (IH ps' s'). cbn [parseLoopE] in IH.
    match goal with |- context [let (f, r) := ?x in _] => destruct x as [f r] end. cbn [fst out_lines printState app] in *. eapply pr_next; [apply follows_code; exact St | exact IH].
Qed.
Theorem C107_state_order : forall opts, silent opts \/ printed 6 (out_lines (runEffect opts)).
Proof.
  intros opts. unfold silent, runEffect. destruct (newVtdParser opts) as [[cf s]|e|w]; [|left; reflexivity..]. unfold parseE.
  destruct (decideEncoding cf s) as [u s1|e s1|w|]; [|left; reflexivity..]. destruct (writeVtd TokDocument 0 0 (s_depth s1) s1) as [u2 s2|e s2|w|]; [|left; reflexivity..].
  right. unfold fuel. apply (loop_printed cf _ StDocStart s2).
Qed.
Print Assumptions C107_state_order.
(** The states of a document with an attribute, a comment, a CDATA section and a
    processing instruction after the document element *)
Definition states_doc : list byte := bytes_of "<a b=''><!--c--><![CDATA[d]]></a><?e f?>".
Definition state_lines_of (ls : list string) : list string := filter (fun l => prefix "Starting" l) ls.
Example C107_example : state_lines_of (out_lines (runEffect [OXmlDoc (Some states_doc)])) =
  map (fun p => "Starting process state: " ++ dec p) [6; 0; 1; 3; 4; 0; 11; 0; 13; 0; 2; 7; 15; 7].
Proof. vm_compute. reflexivity. Qed.
