(** Two runs that differ in the depth of the location cache only. *)
From Verif Require Import Lib XmlChar Buffer BufferProofs Reader ParserState ParserPrim ParserProc ParserMain ParserWp ParserRel ParserRelMain ParserRelNs.

(** No way out. *)
Definition never : way := fun _ _ _ => False.
Lemma never_leaves : leaves never.
Proof. intros A B r1 r2 k1 k2 []. Qed.
Lemma never_escapes : escapes never.
Proof. intros A B r1 r2 h1 h2 k1 k2 []. Qed.

Definition lcOk (s : pst) : Prop := lbOk (s_l1 s) /\ lbOk (s_l2 s) /\ lbOk (s_l3 s) /\ lbOk (s_l4 s) /\ lbOk (s_l5 s).
Definition sameL (s1 s2 : pst) : Prop := s1 = graftL s2 s1 /\ lcOk s1 /\ lcOk s2.

Ltac sameL_set := let v := fresh in let s1 := fresh "s" in let s2 := fresh "s" in let E := fresh "E" in let H := fresh in
  first [intros v s1 s2 (E & H) | intros s1 s2 (E & H)]; split; [rewrite E at 1; reflexivity | exact H].
Lemma sameL_frame : frame sameL.
Proof. constructor; try sameL_set. intros s1 s2 (E & _). rewrite E. reflexivity. Qed.
Lemma sameL_frameL : frameL sameL.
Proof. constructor; try sameL_set; [exact sameL_frame|]. intros s1 s2 (E & _). exact E. Qed.

Lemma append_ok g f v s : lbOk (g s) -> exists b, lbOk b /\ appendTo g f v s = ROk tt (f b s).
Proof.
  intros (e & l & R). destruct (bappend_repr e (g s) l v R) as (b & E & R'). exists b. split; [exists e, (l ++ [v]); exact R'|].
  unfold appendTo. rewrite E. reflexivity.
Qed.

Section Depth.
Variables cf1 cf2 : cfg.
Hypothesis Hdoc : c_doc cf1 = c_doc cf2.
Hypothesis Hoff : c_docOffset cf1 = c_docOffset cf2.
Hypothesis Hlen : c_docLength cf1 = c_docLength cf2.
Hypothesis Hend : c_end cf1 = c_end cf2.
Hypothesis Hns : c_ns cf1 = c_ns cf2.

Lemma rdr_graftL s t : rdr cf1 (graftL s t) = rdr cf2 s.
Proof. unfold rdr. rewrite Hdoc, Hend. reflexivity. Qed.
Lemma sameL_rdr s1 s2 : sameL s1 s2 -> rdr cf1 s1 = rdr cf2 s2.
Proof. intros (E & _). rewrite E. apply rdr_graftL. Qed.

Lemma depth_prims : prims cf1 cf2 sameL never false.
Proof.
  constructor; try assumption; try (intros o; apply sim_endCheck; exact Hend).
  - unfold fuel. rewrite Hdoc. reflexivity.
  - discriminate.
  - intros i s1 s2 H. left. unfold idx. rewrite Hdoc. destruct (znth _ _); [split; [reflexivity | exact H] | reflexivity].
  - intros s1 s2 H. left. unfold getChar. rewrite (sameL_rdr _ _ H). destruct (rdGetChar (rdr cf2 s2)) as [r [c|e|w]]; cbn; [| |reflexivity]; (split; [reflexivity|]).
    + apply (fr_off _ sameL_frame), (fr_roff _ sameL_frame), H.
    + apply (fr_roff _ sameL_frame), H.
  - intros c s1 s2 H. left. unfold skipChar. rewrite (sameL_rdr _ _ H). destruct (rdSkipChar (rdr cf2 s2) c) as [r [x|e|w]]; cbn; [| |reflexivity]; (split; [reflexivity|]).
    + apply (fr_off _ sameL_frame), (fr_roff _ sameL_frame), H.
    + exact H.
  - intros c s1 s2 H. left. unfold skipCharSeq. rewrite (sameL_rdr _ _ H). destruct (rdSkipCharSeq (rdr cf2 s2) c) as [r [x|e|w]]; cbn; [| |reflexivity]; (split; [reflexivity|]).
    + apply (fr_off _ sameL_frame), (fr_roff _ sameL_frame), H.
    + exact H.
  - intros o s1 s2 H. left. unfold fmtCustomLine. rewrite Hdoc, Hoff. pose proof H as (E & _). rewrite E. rewrite E in H. change (s_enc (graftL s2 s1)) with (s_enc s2).
    destruct (s_enc s2 <? FormatUtf16BE); (destruct (lineScan _ _ _ _ _) as [[l lo]|] || destruct (lineScan16 _ _ _ _ _ _) as [[l lo]|]); try reflexivity; (split; [reflexivity | exact H]).
Qed.

(** Writing a location-cache entry changes nothing else and does not fail. *)
Definition quiet (m : M unit) : Prop := forall s, lcOk s -> exists s', m s = ROk tt s' /\ s' = graftL s s' /\ lcOk s'.
Lemma quiet_append1 v : quiet (appendTo s_l1 set_l1 v).
Proof. intros s H. destruct (append_ok s_l1 set_l1 v s ltac:(apply H)) as (b & B & E). exists (set_l1 b s). split; [exact E|]. split; [reflexivity|]. unfold lcOk in *. psimp. tauto. Qed.
Lemma quiet_append2 v : quiet (appendTo s_l2 set_l2 v).
Proof. intros s H. destruct (append_ok s_l2 set_l2 v s ltac:(apply H)) as (b & B & E). exists (set_l2 b s). split; [exact E|]. split; [reflexivity|]. unfold lcOk in *. psimp. tauto. Qed.
Lemma quiet_append3 v : quiet (appendTo s_l3 set_l3 v).
Proof. intros s H. destruct (append_ok s_l3 set_l3 v s ltac:(apply H)) as (b & B & E). exists (set_l3 b s). split; [exact E|]. split; [reflexivity|]. unfold lcOk in *. psimp. tauto. Qed.
Lemma quiet_append4 v : quiet (appendTo s_l4 set_l4 v).
Proof. intros s H. destruct (append_ok s_l4 set_l4 v s ltac:(apply H)) as (b & B & E). exists (set_l4 b s). split; [exact E|]. split; [reflexivity|]. unfold lcOk in *. psimp. tauto. Qed.
Lemma quiet_append5 v : quiet (appendTo s_l5 set_l5 v).
Proof. intros s H. destruct (append_ok s_l5 set_l5 v s ltac:(apply H)) as (b & B & E). exists (set_l5 b s). split; [exact E|]. split; [reflexivity|]. unfold lcOk in *. psimp. tauto. Qed.
Lemma quiet_ret : quiet (ret tt).
Proof. intros s H. exists s. split; [reflexivity|]. split; [reflexivity | exact H]. Qed.
Lemma quiet_modify f : (forall s, f s = graftL s (f s)) -> (forall s, lcOk s -> lcOk (f s)) -> quiet (modify f).
Proof. intros E L s H. exists (f s). split; [reflexivity|]. split; [apply E | apply L, H]. Qed.
Lemma quiet_bind m k : quiet m -> quiet k -> quiet (m ;;; k).
Proof.
  intros Hm Hk s H. destruct (Hm s H) as (s1 & E1 & G1 & L1). destruct (Hk s1 L1) as (s2 & E2 & G2 & L2).
  exists s2. split; [unfold bind; rewrite E1; exact E2|]. split; [rewrite G2, G1; reflexivity | exact L2].
Qed.
Lemma quiet_get (k : pst -> M unit) : (forall x, quiet (k x)) -> quiet (bind (get (fun s => s)) k).
Proof. intros K s H. exact (K s s H). Qed.
Lemma quiet_if (b : bool) m k : quiet m -> quiet k -> quiet (if b then m else k).
Proof. destruct b; auto. Qed.
Ltac quiet :=
  repeat first [ apply quiet_append1 | apply quiet_append2 | apply quiet_append3 | apply quiet_append4 | apply quiet_append5
    | apply quiet_ret | apply quiet_get; intros ?; cbv beta zeta | apply quiet_if | apply quiet_bind
    | apply quiet_modify; [intros ?; reflexivity | intros ? ?; assumption] ].
Lemma quiet_finishUp cf : quiet (finishUp cf).
Proof. unfold finishUp. quiet. Qed.
Lemma quiet_sim m1 m2 : quiet m1 -> quiet m2 -> sim sameL never m1 m2.
Proof.
  intros H1 H2 s1 s2 (E & L1 & L2). left. destruct (H1 s1 L1) as (t1 & -> & G1 & K1). destruct (H2 s2 L2) as (t2 & -> & G2 & K2).
  split; [reflexivity|]. split; [|split; assumption]. rewrite G1 at 1. rewrite E, G2. reflexivity.
Qed.

Lemma sim_write q1 q2 t o l d : (forall s, quiet (q1 s)) -> (forall s, quiet (q2 s)) ->
  sim sameL never (writeVtd t o l d ;;; s <- get (fun s => s) ;; q1 s) (writeVtd t o l d ;;; s <- get (fun s => s) ;; q2 s).
Proof.
  intros Q1 Q2. apply (sim_bind _ _ never_leaves); [apply sim_writeVtd, sameL_frame|]. intros _. apply quiet_sim; apply quiet_get; assumption.
Qed.
Lemma write_deep t o l d : exists q, (forall s, quiet (q s)) /\ writeVtdL5 t o l d = (writeVtd t o l d ;;; s <- get (fun s => s) ;; q s).
Proof. eexists. split; [|unfold writeVtdL5; reflexivity]. intros s. cbv beta zeta. quiet. Qed.
Lemma write_shallow t o l d : exists q, (forall s, quiet (q s)) /\ forall s, writeVtd t o l d s = (writeVtd t o l d ;;; s <- get (fun s => s) ;; q s) s.
Proof. exists (fun _ => ret tt). split; [intros; apply quiet_ret|]. intros s. unfold bind. destruct (writeVtd t o l d s) as [[] ?|?|?|]; reflexivity. Qed.
Lemma sim_write_any (b1 b2 : bool) t o l d :
  sim sameL never ((if b1 then writeVtd else writeVtdL5) t o l d) ((if b2 then writeVtd else writeVtdL5) t o l d).
Proof.
  destruct (write_deep t o l d) as (q1 & Q1 & E1). destruct (write_shallow t o l d) as (q2 & Q2 & E2).
  destruct b1, b2; rewrite ?E1.
  - intros s1 s2 H. rewrite !E2. apply sim_write; assumption.
  - intros s1 s2 H. rewrite E2. apply sim_write; assumption.
  - intros s1 s2 H. rewrite (E2 s2). apply sim_write; assumption.
  - apply sim_write; assumption.
Qed.

Lemma depth_writeStartTag : sim sameL never (writeStartTag cf1) (writeStartTag cf2).
Proof.
  unfold writeStartTag. apply (sim_get _ _ sameL_frame). intros s t H. cbv beta zeta.
  apply sim_if; [reflexivity| |]; (apply sim_if; [reflexivity|apply (sim_parseErr _ _ _ _ _ sameL_frame never_leaves depth_prims) | apply sim_write_any]).
Qed.
Ltac deq1 :=
  lazymatch goal with
  | |- sim _ _ (bind (get _) _) _ => apply (sim_getL _ _ _ _ _ _ sameL_frameL); intros ? ? ?; cbv beta
  | |- sim _ _ (bind _ _) _ => apply (sim_bind _ _ never_leaves); [|intros ?; cbv beta]
  | |- sim _ _ (if _ then _ else _) _ => apply sim_if; [reflexivity| |]
  | |- sim _ _ (ret _) _ => apply sim_ret; reflexivity
  | |- sim _ _ (fail _) _ => apply sim_fail; reflexivity
  | |- sim _ _ (modify _) _ => apply sim_modify; sameL_set
  | |- sim _ _ (lift _) _ => apply sim_lift; reflexivity
  | |- sim _ _ (parseErr _ _) _ => eapply sim_parseErr; [exact sameL_frame | exact never_leaves | exact depth_prims]
  | |- sim _ _ (skipEitherCase _ _) _ => eapply sim_skipEitherCase; [exact never_leaves | exact depth_prims]
  | |- sim _ _ cannotSwitch _ => apply sim_cannotSwitch, sameL_frame
  | |- sim _ _ (matchAt _ _ _) _ => eapply sim_matchAt; [exact never_leaves | exact depth_prims]
  | |- sim _ _ (idx _ _) _ => apply (pr_idx _ _ _ _ _ depth_prims)
  | |- sim _ _ (writeVtd _ _ _ _) _ => apply sim_writeVtd, sameL_frame
  end.
Ltac deq := repeat deq1.
Lemma depth_switch : sim sameL never (switchToAscii cf1) (switchToAscii cf2).
Proof. unfold switchToAscii. rewrite Hdoc, Hend. deq. Qed.
Lemma depth_special : special cf1 cf2 sameL never.
Proof.
  apply (special_same _ _ _ _ false sameL_frameL never_leaves depth_prims Hns).
  - intros s1 s2 o H. rewrite (sameL_rdr _ _ H). apply sim_lift. reflexivity.
  - intros s1 s2 o H. rewrite (sameL_rdr _ _ H). apply sim_lift. reflexivity.
  - apply depth_writeStartTag.
  - unfold checkAsciiEncoding. deq. apply depth_switch.
  - unfold checkUsAsciiEncoding. deq. apply depth_switch.
Qed.
Lemma depth_decide : sim sameL never (decideEncoding cf1) (decideEncoding cf2).
Proof. unfold decideEncoding. rewrite Hns, Hlen. deq. Qed.
Lemma depth_parse : sim sameL never (parse cf1) (parse cf2).
Proof.
  unfold parse. apply (sim_bind _ _ never_leaves); [apply depth_decide|]. intros []. apply (sim_get _ _ sameL_frame). intros s t H. apply (sim_bind _ _ never_leaves); [apply sim_writeVtd, sameL_frame|]. intros [].
  apply (sim_parseLoop cf1 cf2 sameL never never false sameL_frame never_leaves never_escapes never_leaves (fun _ _ _ H => H) depth_prims depth_special).
  - apply quiet_sim; apply quiet_finishUp.
  - exact (pr_fuel _ _ _ _ _ depth_prims).
Qed.
End Depth.
