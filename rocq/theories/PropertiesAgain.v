(** Properties of repeated calls of Parse on one parser. *)
From Verif Require Import Lib XmlChar Buffer BufferProofs Reader ParserState ParserPrim ParserProc ParserMain SpecParse ParserWp ParserInvMain ParserOutcome
  SpecToken PropertiesParse PropertiesQuirks ParserAgain.

(** [later cf s t]: [t] is the parser [s] after some calls of Parse, each of which
    returned (nil or an error). *)
Inductive later (cf : cfg) : pst -> pst -> Prop :=
| later_none s : later cf s s
| later_nil s s1 t : parse cf s = ROk tt s1 -> later cf s1 t -> later cf s t
| later_err s e s1 t : parse cf s = RErr e s1 -> later cf s1 t -> later cf s t.

Lemma later_end cf s t : c_end cf <= s_roff s -> later cf s t -> c_end cf <= s_roff t.
Proof.
  intros H L. induction L as [s|s s1 t E L IH|s e s1 t E L IH]; [exact H| |]; pose proof (at_end_fails cf s H) as X; rewrite E in X; [contradiction|]. apply IH. congruence.
Qed.
Lemma new_ended opts cf s0 s : Forall go_value opts -> newVtdParser opts = Ok (cf, s0) -> parse cf s0 = ROk tt s -> ended cf s /\ bufsOk s /\ 0 <= c_end cf.
Proof.
  intros G N E. pose proof (new_spec opts G) as X. rewrite N in X. destruct X as (W & E1 & E2 & E3 & _ & _ & F).
  destruct (window_of opts) as [[d off] len]. cbn [fst snd] in *. destruct W as (_ & _ & W1 & _ & W2).
  assert (H1 : 0 <= c_docOffset cf) by lia. assert (H2 : 0 <= c_end cf <= zlen (c_doc cf)) by lia.
  split; [exact (parse_ended cf s0 s H1 H2 E3 F E)|]. split; [|lia]. pose proof (parse_outcome cf H1 H2 E3 s0 F) as O. unfold parseOk in O. rewrite E in O. exact (proj1 O).
Qed.
Lemma decide_panics cf s : znth (c_doc cf) (s_off s) = None -> parse cf s = RPanic PnDocIndex.
Proof. intros H. unfold parse, decideEncoding, bind, get, idx. change (s_off s) with (s_off s). rewrite H. reflexivity. Qed.

(** ** C95: after a success Parse never succeeds again. *)
Theorem C95_no_second_success : forall opts cf s0 s t, Forall go_value opts -> newVtdParser opts = Ok (cf, s0) -> parse cf s0 = ROk tt s -> later cf s t ->
  forall t', parse cf t <> ROk tt t' /\ parse cf t <> RDiverge.
Proof.
  intros opts cf s0 s t G N E L t'. destruct (new_ended _ _ _ _ G N E) as (((H & _) & _) & _). pose proof (at_end_fails cf t (later_end cf s t H L)) as X.
  split; intros K; rewrite K in X; exact X.
Qed.
Print Assumptions C95_no_second_success.
(** If the window ends with the buffer, the second call panics. *)
Theorem C95_second_panics : forall opts cf s0 s doc off len, Forall go_value opts -> window_of opts = (Some doc, off, len) -> off + len = zlen doc ->
  newVtdParser opts = Ok (cf, s0) -> parse cf s0 = ROk tt s -> parse cf s = RPanic PnDocIndex.
Proof.
  intros opts cf s0 s doc off len G W Z N E. destruct (new_ended _ _ _ _ G N E) as (((H & H') & _ & O & _) & _). pose proof (new_spec opts G) as X. rewrite N, W in X. cbn [fst snd] in X.
  destruct X as ((D & _) & E1 & E2 & E3 & _). injection D as ->. apply decide_panics. apply znth_none_iff. lia.
Qed.
Print Assumptions C95_second_panics.
(** If two ordinary bytes follow the window, it is an end-of-file error, and another
    document token is stored. *)
Theorem C95_second_eof : forall opts cf s0 s doc off len b1 b2, Forall go_value opts -> window_of opts = (Some doc, off, len) ->
  znth doc (off + len) = Some b1 -> znth doc (off + len + 1) = Some b2 -> ~ In b1 [x00; x3c] -> ~ In b2 [x00; x3c] -> off + 2 * len + 1 < 2^30 ->
  newVtdParser opts = Ok (cf, s0) -> parse cf s0 = ROk tt s ->
  exists s' w, parse cf s = RErr (EEof XmlIncomplete) s' /\ b_size (s_vtd s') = b_size (s_vtd s) + 1 /\
    (b_size (s_vtd s) < 2^62 -> forall l, exports s l -> exports s' (l ++ [w])).
Proof.
  intros opts cf s0 s doc off len b1 b2 G W Z1 Z2 N1 N2 L N E. destruct (new_ended _ _ _ _ G N E) as ((H & U & O & He & Hi & Hs) & B & P). pose proof (new_spec opts G) as X. rewrite N, W in X. cbn [fst snd] in X.
  destruct X as ((D & _) & E1 & E2 & E3 & _). injection D as ->.
  assert (Eo : exists b, znth (c_doc cf) (s_off s) = Some b /\ ~ In b [x00; x3c]).
  { rewrite O. destruct U as [U|(U & _)]; [exists b1; replace (s_roff s) with (off + len) by lia | exists b2; replace (s_roff s) with (off + len + 1) by lia]; split; assumption. }
  destruct Eo as (b & Eb & Nb).
  assert (Hoff : s_off s <= off + len + 1) by (destruct U as [U|(U & _)]; lia).
  pose proof (decide_at cf s ltac:(lia) He Hi Hs) as D.
  assert (D' : decideEncoding cf s = ROk tt s).
  { destruct (decideEncoding cf s) as [[] s1|e s1|w|].
    - destruct D as (_ & _ & [(-> & _)|[(_ & D)|(_ & D)]]); [reflexivity|exfalso; apply Nb..].
      + apply sigBE_0 in D. left. congruence.
      + apply sigLE_0 in D. right; left. destruct D as [D _]. congruence.
    - exfalso. destruct D as (sc & sn & _ & [(_ & _ & D & _)|(m & _ & D)]).
      + apply Nb. left. congruence.
      + destruct (c_ns cf); lia.
    - exfalso. destruct D as (_ & p & q & Hq & D & Bp & Lp). destruct p as [|b' p].
      + change (zlen (@nil byte)) with 0 in Lp. apply znth_range in Eb. lia.
      + assert (Eb' : b' = b). { specialize (Bp 0). rewrite Z.add_0_r, Eb in Bp. change (znth (b' :: p) 0) with (Some b') in Bp. assert (K : Some b = Some b') by (apply Bp; rewrite zlen_cons; pose proof (zlen_nonneg p); lia). congruence. }
        subst b'. apply Nb. destruct D as [D|D]; injection D as -> _; [left | right; left]; reflexivity.
    - contradiction. }
  unfold parse. rewrite bindE, D'. rewrite bindE. unfold get at 1. cbv beta iota. rewrite bindE. unfold writeVtd.
  destruct B as ((e & l & R) & _). unfold appendTo. change (s_vtd s) with (s_vtd s). change (s_depth s) with (s_depth s). destruct (bappend_repr e (s_vtd s) l (mkToken TokDocument 0 0 (s_depth s)) R) as (vb & -> & R').
  unfold fuel. rewrite loop_empty by (change (c_end cf <= s_roff s); lia).
  exists (set_vtd vb s), (mkToken TokDocument 0 0 (s_depth s)). split; [reflexivity|]. unfold exports. psimp. rewrite (rp_size _ _ _ R), (rp_size _ _ _ R'). split; [rewrite zlen_app, zlen_one; reflexivity|].
  intros Z l' X. rewrite (toArray_repr _ _ _ R) in X by lia. injection X as <-. apply (toArray_repr _ _ _ R'). rewrite zlen_app, zlen_one. lia.
Qed.
Print Assumptions C95_second_eof.

(** A parsed window inside a larger buffer, and the two following bytes *)
Example C95_example : exists cf s0 s s', newVtdParser [OCustom (Some (bytes_of "<a/>xy")) 0 4] = Ok (cf, s0) /\ parse cf s0 = ROk tt s /\
  parse cf s = RErr (EEof XmlIncomplete) s'.
Proof. eexists _, _, _, _. split; [vm_compute; reflexivity|]. split; [vm_compute; reflexivity|]. vm_compute. reflexivity. Qed.

(** ** C96: a rejected document can be accepted by calling Parse again. *)
Theorem C96_retry_refuted : exists opts cf s0 e s s', newVtdParser opts = Ok (cf, s0) /\
  parse cf s0 = RErr e s /\ parse cf s = ROk tt s' /\ (exists w, exports s' w /\ map field_type w = [13; 13; 0]).
Proof.
  exists [OXmlDoc (Some (bytes_of "x<a/>"))]. eexists _, _, _, _, _. split; [vm_compute; reflexivity|]. split; [vm_compute; reflexivity|]. split; [vm_compute; reflexivity|].
  eexists. split; [vm_compute; reflexivity|]. vm_compute. reflexivity.
Qed.
Print Assumptions C96_retry_refuted.
