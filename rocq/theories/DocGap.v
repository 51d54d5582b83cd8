(** Between two markups: for every way a markup ends, what the parser reads up to
    the next markup. *)
From Verif Require Import Lib XmlChar XmlCharProofs Buffer BufferProofs Reader ParserState ParserPrim ParserProc ParserMain
  SpecParse SpecChar SpecDoc ParserWp ParserInv ParserInvTag ParserInvMain TokenProofs SpecToken DocScan DocBase.

Lemma zl0 {A} : zlen (@nil A) = 0.
Proof. reflexivity. Qed.
(** [bs] with the projections of the state in their usual form. *)
Lemma get_depth {B} (k : _ -> M B) s : bind (get s_depth) k s = k (s_depth s) s.
Proof. reflexivity. Qed.
Lemma get_off {B} (k : _ -> M B) s : bind (get s_off) k s = k (s_off s) s.
Proof. reflexivity. Qed.
Lemma get_last {B} (k : _ -> M B) s : bind (get s_last) k s = k (s_last s) s.
Proof. reflexivity. Qed.
Lemma get_cur {B} (k : _ -> M B) s : bind (get s_cur) k s = k (s_cur s) s.
Proof. reflexivity. Qed.
Lemma get_ws {B} (k : _ -> M B) s : bind (get s_ws) k s = k (s_ws s) s.
Proof. reflexivity. Qed.
Lemma get_helper {B} (k : _ -> M B) s : bind (get s_helper) k s = k (s_helper s) s.
Proof. reflexivity. Qed.
Lemma get_attrCount {B} (k : _ -> M B) s : bind (get s_attrCount) k s = k (s_attrCount s) s.
Proof. reflexivity. Qed.
Lemma get_inc {B} (k : _ -> M B) s : bind (get s_inc) k s = k (s_inc s) s.
Proof. reflexivity. Qed.
Lemma get_len1 {B} (k : _ -> M B) s : bind (get s_len1) k s = k (s_len1 s) s.
Proof. reflexivity. Qed.
Lemma get_len2 {B} (k : _ -> M B) s : bind (get s_len2) k s = k (s_len2 s) s.
Proof. reflexivity. Qed.
Ltac run := unfold markLast; repeat first [rewrite get_depth | rewrite get_off | rewrite get_last | rewrite get_cur | rewrite get_ws | rewrite get_helper | rewrite get_attrCount | rewrite get_inc | rewrite get_len1 | rewrite get_len2 | rewrite bind_get | rewrite bind_modify | rewrite bind_ret | rewrite bind_assoc | rewrite bind_andM | rewrite bind_orM]; cbv beta; qsimp.
Ltac run_in K := unfold markLast in K; repeat first [rewrite get_depth in K | rewrite get_off in K | rewrite get_last in K | rewrite get_cur in K | rewrite get_ws in K | rewrite get_helper in K | rewrite get_attrCount in K | rewrite get_inc in K | rewrite get_len1 in K | rewrite get_len2 in K | rewrite bind_get in K | rewrite bind_modify in K | rewrite bind_ret in K | rewrite bind_assoc in K | rewrite bind_andM in K | rewrite bind_orM in K]; cbv beta in K; qsimp_in K.

Section Gap.
Variable cf : cfg.
Variable fin : nat -> M unit.
Notation doc := (c_doc cf).
Hypothesis HE : c_end cf = zlen doc.
Hypothesis HD : zlen doc < 2^31.
Hypothesis HN : c_ns cf = false.
Context {Nv : nsview}.
(* local notations *)
Local Notation At := (DocScan.At cf).
Local Notation At_len := (DocScan.At_len cf).
Local Notation At_app := (DocScan.At_app cf).
Local Notation At_fuel := (DocScan.At_fuel cf).
Local Notation ok_skip_yes := (DocScan.ok_skip_yes cf).
Local Notation ok_skip_no := (DocScan.ok_skip_no cf).
Local Notation inv_skip := (DocScan.inv_skip cf).
Local Notation parseErr_not := (DocScan.parseErr_not cf).
Local Notation parseErr_bind_not := (DocScan.parseErr_bind_not cf).
Local Notation At_app_cons := (DocScan.At_app_cons cf).
Local Notation ok_nextWs := (DocScan.ok_nextWs cf HE).
Local Notation inv_nextWs := (DocScan.inv_nextWs cf HE).
Local Notation ok_handle := (DocScan.ok_handle cf HE).
Local Notation inv_handle := (DocScan.inv_handle cf HE).
Local Notation textLoop_ok := (DocScan.textLoop_ok cf HE).
Local Notation textLoop_inv := (DocScan.textLoop_inv cf HE).
Local Notation Base := (DocBase.Base cf).
Local Notation Tagged := (DocBase.Tagged cf).
Local Notation Quiet := (DocBase.Quiet cf).
Local Notation textHere_ok := (DocBase.textHere_ok cf fin).
Local Notation loop := (DocBase.loop cf fin).
Local Notation andThen := (DocBase.andThen cf fin).
Local Notation loop_inv := (DocBase.loop_inv cf fin).
Local Notation leads := (DocBase.leads cf fin).
Local Notation leads_ret := (DocBase.leads_ret cf fin).
Local Notation leads_next := (DocBase.leads_next cf fin).
Local Notation andThen_inv := (DocBase.andThen_inv cf fin).
Local Notation tailText := (DocBase.tailText cf).
Local Notation tailDtd := (DocBase.tailDtd cf).
Local Notation tailEnd := (DocBase.tailEnd cf).
Local Notation tailOf := (DocBase.tailOf cf).
Local Notation AfterM := (DocBase.AfterM cf).
Local Notation Ready := (DocBase.Ready cf).
(* end *)

Lemma blank_split x : exists w y, x = w ++ y /\ blank w = true /\ (y = [] \/ exists c t, y = c :: t /\ space c = false).
Proof.
  induction x as [|b x (w & y & -> & Hw & Hy)]; [exists [], []; auto|]. destruct (space b) eqn:Eb.
  - exists (b :: w), y. cbn. rewrite Eb. auto.
  - exists [], (b :: w ++ y). split; [reflexivity|]. split; [reflexivity|]. right. eauto.
Qed.
Lemma blank_app w y : blank (w ++ y) = blank w && blank y.
Proof. apply forallb_app. Qed.
Lemma text_first y : text y -> y = [] \/ exists c u t, y = c :: u ++ t /\ text t /\ ((content c /\ u = []) \/ forall l, other c u (t ++ x3c :: l)).
Proof.
  intros H. destruct (text_head y H) as [->|[(b & t & -> & Hb & Ht)|(b & u & t & -> & Ho & Ht)]]; [left; reflexivity | right..].
  - exists b, [], t. cbn. auto.
  - exists b, u, t. auto.
Qed.
Lemma base_ascii ts s : Base ts s -> s_rascii s = false.
Proof. intros H. apply H. Qed.
Lemma quiet_base st ts s : Quiet st ts s -> Base ts s.
Proof. intros H. apply H. Qed.

Lemma quiet_vtd names st ts ts' s b : Tagged names st ts s -> Base ts' (set_vtd b s) -> Tagged names st ts' (set_vtd b s).
Proof. intros (_ & D) B. exact (conj B D). Qed.
Lemma at_fuel_app p x l : At p (x ++ l) -> (length x < fuel cf)%nat.
Proof. intros H. pose proof (At_fuel _ _ H). rewrite app_length in *. lia. Qed.
Lemma at_end p x l : At p (x ++ l) -> 0 <= p /\ p + zlen x + zlen l < 2^31.
Proof. intros H. pose proof (At_len _ _ H) as E. rewrite zlen_app in E. destruct H as [H _]. lia. Qed.
Lemma depth_pos st : st <> [] -> 0 <= depth st.
Proof. destruct st; [congruence|]. intros _. unfold depth. rewrite zlen_cons. pose proof (zlen_nonneg st). lia. Qed.

(** ** Text *)
Lemma text_ok st ts s p x y z r : Quiet st ts s -> st <> [] -> s_last s = p -> s_roff s = p + zlen y -> x = y ++ z -> text z ->
  At p (x ++ x3c :: r) ->
  exists s', processText cf s = ROk StLtSeen s' /\ Quiet st (ts ++ text_toks 5 p (zlen x) (depth st)) s' /\ Pos (p + zlen x + 1) s' /\ s_helper s' = s_helper s.
Proof.
  intros Q Hst Hl Hr -> Hz H. pose proof Q as (B & D & _).
  unfold processText. run. rewrite D. pose proof (depth_pos _ Hst). destruct (Z.ltb_spec (depth st) 0); [lia|].
  assert (Hz' : At (s_roff s) (z ++ x3c :: r)) by (rewrite Hr; apply At_app; rewrite <- app_assoc in H; exact H).
  pose proof (at_end _ _ _ H) as HL. rewrite zlen_cons, zlen_app in HL. pose proof (zlen_nonneg r). pose proof (zlen_nonneg y). pose proof (zlen_nonneg z).
  erewrite bind_eq; [|apply (textLoop_ok z (fuel cf) s r (base_ascii _ _ B) Hz Hz' (at_fuel_app _ _ _ Hz')) | reflexivity].
  run. set (s1 := set_len1 _ _).
  assert (E1 : s_len1 s1 = zlen (y ++ z)) by (pose proof B as (_ & I & _); cbn; rewrite I, Hr, Hl, zlen_app; lia).
  destruct (textHere_ok 5 s1 ts) as (b & E & B1); [exact B | lia | cbn; lia | rewrite E1, zlen_app; lia |].
  erewrite bind_eq; [|exact E|reflexivity]. eexists. split; [reflexivity|].
  change (s_last s1) with (s_last s) in B1. change (s_depth s1) with (s_depth s) in B1. rewrite E1, Hl, D in B1.
  split; [exact (quiet_vtd _ _ _ _ s1 _ Q B1)|]. split; [|reflexivity].
  rewrite zlen_app. split; cbn; lia.
Qed.
Lemma text_inv s l ps s' : s_rascii s = false -> At (s_roff s) l -> processText cf s = ROk ps s' ->
  0 <= s_depth s /\ exists x r, l = x ++ x3c :: r /\ text x.
Proof.
  intros Hr H K. unfold processText in K. run_in K. destruct (Z.ltb_spec (s_depth s) 0); [apply parseErr_not in K; contradiction|].
  split; [assumption|]. apply bind_inv in K. destruct K as (a & s1 & K & _). destruct a. exact (textLoop_inv _ _ _ _ Hr H K).
Qed.

(** The bytes a tail reads before the text loop. *)
Inductive begins : byte -> list byte -> list byte -> Prop :=
| B_content b l : content b -> begins b [] l
| B_other b u l : other b u l -> begins b u l.
Lemma text_begin x : text x -> blank x = false ->
  exists w c u t, x = w ++ c :: u ++ t /\ blank w = true /\ space c = false /\ text t /\ forall l, begins c u (t ++ x3c :: l).
Proof.
  intros Hx Hb. destruct (blank_split x) as (w & y & -> & Hw & Hy). rewrite blank_app, Hw in Hb. cbn in Hb.
  destruct Hy as [->|(c & t & -> & Hc)]; [discriminate|]. apply text_drop in Hx; [|exact Hw].
  destruct (text_head _ Hx) as [E|[(b & t' & E & Hb' & Ht)|(b & u & t' & E & Ho & Ht)]]; [discriminate|..]; injection E as <- ->.
  - exists w, c, [], t'. cbn [app]. repeat split; try assumption. intros l. constructor. exact Hb'.
  - exists w, c, u, t'. repeat split; try assumption. intros l. constructor 2. apply Ho.
Qed.
Lemma begins_lt c u l : begins c u l -> space c = false -> (b2z c =? 60) = false.
Proof.
  intros [b l' [_ H]|b u' l' H] _.
  - apply (eqb_false b x3c). intros ->. apply H. cbn. auto.
  - apply other_class in H. apply (eqb_false b x3c). apply H.
Qed.
Definition textStart (c : Z) (ps : pstate) : M pstate :=
  if isContentChar c then ret StText else handleOtherTextChar cf c ;;; ret ps.
Lemma textStart_ok c u l p s : s_rascii s = false -> begins c u l -> At p (u ++ l) ->
  textStart (b2z c) StText (mv p s) = ROk StText (mv (p + zlen u) s).
Proof.
  intros Hr Hb H. unfold textStart. destruct Hb as [b l' Hc|b u l' Ho].
  - rewrite (proj2 (isContent_byte b) Hc). rewrite zl0, Z.add_0_r. reflexivity.
  - rewrite (proj1 (other_class _ _ _ Ho)). eapply ok_handle; [exact Hr | exact Ho | exact H |]. reflexivity.
Qed.
Lemma textStart_inv c l p s ps ps1 s1 : s_rascii s = false -> At p l -> textStart (b2z c) ps (mv p s) = ROk ps1 s1 ->
  exists u k, l = u ++ k /\ begins c u k /\ (isContentChar (b2z c) = true -> u = [] /\ ps1 = StText) /\
    (isContentChar (b2z c) = false -> other c u k /\ ps1 = ps) /\ At (p + zlen u) k /\ s1 = mv (p + zlen u) s.
Proof.
  intros Hr H K. unfold textStart in K. destruct (isContentChar (b2z c)) eqn:E.
  - injection K as <- <-. exists [], l. split; [reflexivity|]. split; [constructor; apply isContent_byte, E|].
    split; [auto|]. split; [discriminate|]. rewrite zl0, Z.add_0_r. split; [exact H | reflexivity].
  - eapply inv_handle in K; [|exact Hr|exact H]. destruct K as (u & k & -> & Ho & H1 & K). injection K as <- <-.
    exists u, k. split; [reflexivity|]. split; [constructor 2; exact Ho|]. split; [discriminate|]. auto.
Qed.
(** The tails have the same behaviour on text. *)
Lemma getNext_text c s ps s' : (b2z c =? 60) = false ->
  getNextProcessStateFromChar cf (b2z c) s = ROk ps s' <-> textStart (b2z c) StText s = ROk ps s'.
Proof.
  intros E. unfold getNextProcessStateFromChar, textStart, handleOtherTextChar. rewrite E.
  destruct (b2z c =? 38) eqn:E1; [bytes; change (isContentChar (b2z x26)) with false; cbv iota|].
  - rewrite bind_assoc. split; intros K; apply bind_inv in K; destruct K as (v & s1 & K1 & K); eapply bind_eq; try exact K1; cbv beta in *;
      (destruct (isValidChar v); [exact K | first [apply parseErr_not in K | apply parseErr_bind_not in K]; contradiction]).
  - destruct (b2z c =? 93) eqn:E2; [bytes; change (isContentChar (b2z x5d)) with false; cbv iota|].
    + rewrite bind_assoc. split; intros K; apply bind_inv in K; destruct K as (v & s1 & K1 & K); eapply bind_eq; try exact K1; cbv beta in *;
      [rewrite bind_assoc | rewrite bind_assoc in K]; apply bind_inv in K; destruct K as (v' & s2 & K2 & K); eapply bind_eq; try exact K2; cbv beta in *;
      (destruct v'; [first [apply parseErr_not in K | apply parseErr_bind_not in K]; contradiction | exact K]).
    + destruct (isContentChar (b2z c)); [reflexivity|].
      split; intros K; first [apply parseErr_not in K | apply parseErr_bind_not in K]; contradiction.
Qed.

(** ** The tails on text *)
Definition slash (r : list byte) : bool := match r with x2f :: _ => true | _ => false end.
Definition gapToks (p d : Z) (m : markup) (g : gap) (e : bool) : list tok :=
  match g with
  | GText x => if blank x && negb (is_open m && e) then [] else text_toks 5 p (zlen x) d
  | GPseudo _ _ => []
  end.
Lemma gapToks_eq p d m g next : gap_toks p d m g next = gapToks p d m g (is_end next).
Proof. reflexivity. Qed.

(** Text that is not blank: the first bytes, then the state [StText]. *)
Lemma nonblank_ok F st ts s p x r : Quiet st ts s -> st <> [] -> Pos p s -> At p (x ++ x3c :: r) -> text x -> blank x = false ->
  (forall w c u t, x = w ++ c :: u ++ t -> blank w = true -> space c = false -> text t -> begins c u (t ++ x3c :: r) ->
     forall s1, textStart (b2z c) StText (mv (p + zlen w + 1) (set_cur (b2z c) (set_last p s))) = ROk StText s1 -> F s = ROk StText s1) ->
  exists s', leads F s StLtSeen s' /\ Ready [] (p + zlen x + 1) st (ts ++ text_toks 5 p (zlen x) (depth st)) r StLtSeen s'.
Proof.
  intros Q Hst [Po Pr] H Hx Hb HF. destruct (text_begin _ Hx Hb) as (w & c & u & t & E & Hw & Hc & Ht & Hu).
  specialize (HF w c u t E Hw Hc Ht (Hu r)).
  pose proof H as H0. rewrite E in H0. rewrite <- app_assoc in H0. cbn [app] in H0. apply At_app_cons in H0. rewrite <- app_assoc in H0.
  specialize (HF _ (textStart_ok c u (t ++ x3c :: r) (p + zlen w + 1) (set_cur (b2z c) (set_last p s)) (base_ascii _ _ (quiet_base _ _ _ Q)) (Hu r) H0)).
  set (s1 := mv _ _) in HF.
  destruct (text_ok st ts s1 p x (w ++ c :: u) t r) as (s' & K & Q' & P' & _);
    [exact Q | exact Hst | reflexivity | subst s1; qsimp; rewrite zlen_app, zlen_cons; lia | rewrite E, <- app_assoc; reflexivity | exact Ht | exact H|].
  exists s'. split; [exact (leads_next _ _ _ _ _ _ HF ltac:(discriminate) K)|].
  split; [exact Q'|]. split; [exact (At_app_cons _ _ _ _ H)|]. left. destruct P'. rewrite zl0, Z.add_0_r. repeat split; try assumption. exists r. reflexivity.
Qed.

(** A tail reads the white space and the first byte [c] after it. *)
Lemma tail_read {B} st ts s p w c l (k : unit -> M B) R : Quiet st ts s -> Pos p s -> At p (w ++ c :: l) -> blank w = true -> space c = false ->
  (At (p + zlen w + 1) l -> k tt (adv (p + zlen w + 1) (b2z c) (set_last p s)) = R) ->
  bind (nextCharAfterWs cf) k (set_last (s_off s) s) = R.
Proof.
  intros Q [Po Pr] H Hw Hc K. rewrite Po. eapply ok_nextWs with (w := w) (b := c) (l := l);
    [exact (base_ascii _ _ (quiet_base _ _ _ Q)) | qsimp; rewrite Pr; exact H | exact Hw | exact Hc |].
  qsimp. rewrite Pr. exact K.
Qed.
Lemma tail_read_inv {B} st ts s p l (k : unit -> M B) a s' : Quiet st ts s -> Pos p s -> At p l ->
  bind (nextCharAfterWs cf) k (set_last (s_off s) s) = ROk a s' ->
  exists w c r, l = w ++ c :: r /\ blank w = true /\ space c = false /\ At (p + zlen w + 1) r /\
    k tt (adv (p + zlen w + 1) (b2z c) (set_last p s)) = ROk a s'.
Proof.
  intros Q [Po Pr] H K. rewrite Po in K. eapply inv_nextWs in K; [| exact (base_ascii _ _ (quiet_base _ _ _ Q)) | qsimp; rewrite Pr; exact H].
  qsimp_in K. rewrite Pr in K. exact K.
Qed.
Lemma ws_quiet st ts s : Quiet st ts s -> s_ws s = false.
Proof. intros ((_ & _ & _ & _ & H & _) & _). exact H. Qed.
Lemma ready_lt st ts s p r (w : list byte) c : Quiet st ts s -> At (p + zlen w + 1) r ->
  Ready [] (p + zlen w + 1) st ts r StLtSeen (adv (p + zlen w + 1) c (set_last p s)).
Proof.
  intros Q H. split; [exact Q|]. split; [exact H|]. left. rewrite zl0, Z.add_0_r. repeat split. exists r. reflexivity.
Qed.

Lemma tailText_ok m st ts s p x r e : Quiet st ts s -> Pos p s -> At p (x ++ x3c :: r) -> text x -> (st = [] -> blank x = true) -> is_open m = false ->
  exists s', leads tailText s StLtSeen s' /\ Ready [] (p + zlen x + 1) st (ts ++ gapToks p (depth st) m (GText x) e) r StLtSeen s'.
Proof.
  intros Q P H Hx Hst Hm. unfold gapToks. rewrite Hm. destruct (blank x) eqn:Eb; cbn [andb negb].
  - rewrite app_nil_r. exists (adv (p + zlen x + 1) 60 (set_last p s)). split; [|exact (ready_lt _ _ _ _ _ x _ Q (At_app_cons _ _ _ _ H))].
    apply leads_ret. unfold tailText. run. eapply (tail_read st ts s p x x3c r); try assumption; [reflexivity|]. intros _. run.
    unfold getNextProcessStateFromChar. change (b2z x3c =? 60) with true. cbv iota. run. rewrite (ws_quiet _ _ _ Q). reflexivity.
  - apply (nonblank_ok tailText st ts s p x r); try assumption; [intros ->; discriminate (Hst eq_refl)|].
    intros w c u t -> Hw Hc Ht Hu s1 K. unfold tailText. run. rewrite <- app_assoc in H. cbn [app] in H.
    eapply tail_read; try eassumption. intros _. run. apply getNext_text; [exact (begins_lt _ _ _ Hu Hc) | exact K].
Qed.
Lemma tailDtd_ok st ts s p x r : Quiet st ts s -> Pos p s -> At p (x ++ x3c :: r) -> blank x = true ->
  exists s', leads tailDtd s StLtSeen s' /\ Ready [] (p + zlen x + 1) st ts r StLtSeen s'.
Proof.
  intros Q [Po Pr] H Hx. exists (adv (p + zlen x + 1) 60 s). split.
  - apply leads_ret. unfold tailDtd. eapply ok_nextWs with (w := x) (b := x3c) (l := r);
      [exact (base_ascii _ _ (quiet_base _ _ _ Q)) | rewrite Pr; exact H | exact Hx | reflexivity |]. intros _. rewrite Pr. run. reflexivity.
  - split; [exact Q|]. split; [exact (At_app_cons _ _ _ _ H)|]. left. rewrite zl0, Z.add_0_r. repeat split. exists r. reflexivity.
Qed.
Lemma depth_not st : st <> [] -> (depth st =? -1) = false.
Proof. intros H. apply depth_pos in H. lia. Qed.
Lemma tailEnd_ok m st ts s p x r e : Quiet st ts s -> Pos p s -> At p (x ++ x3c :: r) -> st <> [] -> text x -> plain_first x -> is_open m = false ->
  exists s', leads tailEnd s StLtSeen s' /\ Ready [] (p + zlen x + 1) st (ts ++ gapToks p (depth st) m (GText x) e) r StLtSeen s'.
Proof.
  intros Q P H Hst Hx Hp Hm. pose proof Q as (_ & D & _). unfold gapToks. rewrite Hm. destruct (blank x) eqn:Eb; cbn [andb negb].
  - rewrite app_nil_r. exists (adv (p + zlen x + 1) 60 (set_last p s)). split; [|exact (ready_lt _ _ _ _ _ x _ Q (At_app_cons _ _ _ _ H))].
    apply leads_ret. unfold tailEnd. run. rewrite D, (depth_not _ Hst). run. eapply (tail_read st ts s p x x3c r); try assumption; [reflexivity|]. intros _. run.
    change (b2z x3c =? 60) with true. cbv iota. run. rewrite (ws_quiet _ _ _ Q). reflexivity.
  - apply (nonblank_ok tailEnd st ts s p x r); try assumption.
    intros w c u t -> Hw Hc Ht Hu s1 K. unfold tailEnd. run. rewrite D, (depth_not _ Hst). run. rewrite <- app_assoc in H. cbn [app] in H.
    eapply tail_read; try eassumption. intros _. run. rewrite (begins_lt _ _ _ Hu Hc).
    assert (Hcc : content c).
    { destruct Hp as [Hp|(w' & b & t' & E & Hw' & Hb & Hbc)]; [congruence|].
      assert (w' = w /\ b = c) as [_ <-]; [|exact Hbc]. clear - E Hw Hw' Hc Hb. revert w' E Hw'. induction w as [|a w IH]; intros [|a' w'] E Hw'; cbn in *.
      - injection E as -> _. auto.
      - injection E as -> _. rewrite Hc in Hw'. discriminate.
      - injection E as -> _. rewrite Hb in Hw. discriminate.
      - injection E as -> E. apply andb_true_iff in Hw, Hw'. destruct (IH (proj2 Hw) w' E (proj2 Hw')) as [-> ->]. auto. }
    revert K. unfold textStart. rewrite (proj2 (isContent_byte c) Hcc). exact (fun K => K).
Qed.
Lemma pseudo_ok st ts s p w c u r : Quiet st ts s -> Pos p s -> At p (w ++ c :: u ++ r) -> st <> [] -> blank w = true -> other c u r ->
  exists s', leads tailEnd s StLtSeen s' /\ Ready [] (p + zlen w + 1 + zlen u) st ts r StLtSeen s'.
Proof.
  intros Q P H Hst Hw Ho. pose proof Q as (_ & D & _). destruct (other_class _ _ _ Ho) as (C1 & C2 & C3).
  exists (mv (p + zlen w + 1 + zlen u) (set_cur (b2z c) (set_last p s))). pose proof (At_app_cons _ _ _ _ H) as H1. split.
  - apply leads_ret. unfold tailEnd. run. rewrite D, (depth_not _ Hst). run. eapply tail_read; try eassumption. intros _. run.
    rewrite (eqb_false c x3c C2 : (b2z c =? 60) = false), C1. change (adv (p + zlen w + 1) (b2z c) (set_last p s)) with (mv (p + zlen w + 1) (set_cur (b2z c) (set_last p s))).
    eapply ok_handle; [exact (base_ascii _ _ (quiet_base _ _ _ Q)) | exact Ho | exact H1 |]. reflexivity.
  - split; [exact Q|]. split; [exact (At_app _ _ _ H1)|]. left. rewrite zl0, Z.add_0_r. repeat split. exists r. reflexivity.
Qed.
Lemma tailElem_ok m st ts s p x r : Quiet st ts s -> Pos p s -> At p (x ++ x3c :: r) -> st <> [] -> text x -> s_helper s = is_open m ->
  (blank x = true -> r <> []) ->
  exists ps s', leads (processElementTail cf) s ps s' /\ Ready [] (p + zlen x + 1) st (ts ++ gapToks p (depth st) m (GText x) (slash r)) r ps s'.
Proof.
  intros Q P H Hst Hx Hm Hr. pose proof Q as (B & D & _). unfold gapToks. destruct (blank x) eqn:Eb; cbn [andb].
  - specialize (Hr eq_refl). destruct r as [|b r]; [congruence|]. clear Hr. pose proof (At_app_cons _ _ _ _ H) as H1.
    destruct (Byte.eqb b x2f) eqn:E.
    + apply Byte.byte_dec_bl in E. subst b. cbn [slash]. rewrite andb_true_r. rewrite <- Hm.
      pose proof (at_end _ _ _ H) as L. rewrite !zlen_cons in L. pose proof (zlen_nonneg r). pose proof (zlen_nonneg x).
      set (s1 := mv (p + zlen x + 1 + 1) (adv (p + zlen x + 1) 60 (set_last p s))).
      assert (K : exists s', (if s_helper s then
           (modify (set_len1 (p + zlen x + 1 + 1 - p - Z.shiftl (s_inc s) 1)) ;;; writeTextHere TokCharacterData) else ret tt) s1 = ROk tt s' /\
           Quiet st (ts ++ (if negb (s_helper s) then [] else text_toks 5 p (zlen x) (depth st))) s' /\ Pos (p + zlen x + 2) s').
      { destruct (s_helper s) eqn:Eh; cbn [negb].
        - run. set (s2 := set_len1 _ s1).
          assert (E1 : s_len1 s2 = zlen x) by (pose proof B as (_ & I & _); subst s2; qsimp; rewrite I; change (Z.shiftl 1 1) with 2; lia).
          destruct (textHere_ok 5 s2 ts) as (b & E & B1); [exact B | lia | subst s2 s1; qsimp; lia | rewrite E1; lia |].
          exists (set_vtd b s2). split; [exact E|]. rewrite E1 in B1. change (s_last s2) with p in B1. change (s_depth s2) with (s_depth s) in B1. rewrite D in B1.
          split; [exact (quiet_vtd [] st ts _ s2 _ Q B1)|]. subst s2 s1. split; qsimp; lia.
        - exists s1. split; [reflexivity|]. rewrite app_nil_r. split; [exact Q|]. subst s1. split; qsimp; lia. }
      destruct K as (s' & K & Q' & P'). exists StTagEnd, s'. split.
      * apply leads_ret. unfold processElementTail. run. rewrite D, (depth_not _ Hst). run.
        eapply (tail_read st ts s p x x3c (x2f :: r)); try assumption; [reflexivity|]. intros _. run.
        change (b2z x3c =? 60) with true. cbv iota. run. rewrite (ws_quiet _ _ _ Q). cbv iota. run.
        eapply (ok_skip_yes _ x2f r); [exact H1|]. intros _. run. fold s1. change (s_helper s1) with (s_helper s).
        destruct (s_helper s); run; [run_in K; eapply bind_eq; [exact K | reflexivity] | injection K as <-; reflexivity].
      * split; [exact Q'|]. split; [exact H1|]. right. destruct P'. split; [reflexivity|]. split; [reflexivity|]. split; [split; lia|]. exists r. reflexivity.
    + assert (Es : slash (b :: r) = false) by (destruct b; try reflexivity; discriminate E).
      rewrite Es, andb_false_r. cbn [negb]. rewrite app_nil_r.
      exists StLtSeen, (adv (p + zlen x + 1) 60 (set_last p s)). split; [|exact (ready_lt _ _ _ _ _ x _ Q H1)].
      apply leads_ret. unfold processElementTail. run. rewrite D, (depth_not _ Hst). run.
      eapply (tail_read st ts s p x x3c (b :: r)); try assumption; [reflexivity|]. intros _. run.
      change (b2z x3c =? 60) with true. cbv iota. run. rewrite (ws_quiet _ _ _ Q). cbv iota. run.
      eapply ok_skip_no; [exact H1 | intros E2; change 47 with (b2z x2f) in E2; apply b2z_inj in E2; subst b; discriminate E |]. intros _. run. reflexivity.
  - destruct (nonblank_ok (processElementTail cf) st ts s p x r) as (s' & L & R); try assumption; [|exists StLtSeen, s'; auto].
    intros w c u t -> Hw Hc Ht Hu s1 K. unfold processElementTail. run. rewrite D, (depth_not _ Hst). run. rewrite <- app_assoc in H. cbn [app] in H.
    eapply tail_read; try eassumption. intros _. run. rewrite (begins_lt _ _ _ Hu Hc). exact K.
Qed.

(** What must come after the gap. *)
Definition follows (m : markup) (g : gap) (r : list byte) : Prop :=
  match g with
  | GText x => is_start m = true -> blank x = true -> r <> []
  | GPseudo w u => exists c u', u = c :: u' /\ other c u' r
  end.
Lemma gap_ok m st ts s p g r : AfterM m p st ts s -> (is_start m || is_end m = true -> st <> []) -> wf_gap m st g -> follows m g r ->
  At p (render_gap g ++ r) ->
  exists ps s', leads (tailOf m) s ps s' /\ Ready [] (p + zlen (render_gap g)) st (ts ++ gapToks p (depth st) m g (slash r)) r ps s'.
Proof.
  intros (Q & P & Hh) Hst Hg Hf H. destruct g as [x|w u]; cbn [render_gap wf_gap follows] in *.
  - rewrite <- app_assoc in H. lits_in H. rewrite zlen_app. change (zlen (lit "<")) with 1. rewrite Z.add_assoc. destruct Hg as (Hx & Hb & Hp).
    destruct m as [n a t e|n w|y|y|n v|y]; cbn [tailOf is_start is_end is_doctype orb] in *.
    + apply tailElem_ok; auto.
    + destruct (tailEnd_ok (MEnd n w) st ts s p x r (slash r)) as (s' & R); auto. exists StLtSeen, s'. exact R.
    + destruct (tailText_ok (MComment y) st ts s p x r (slash r)) as (s' & R); auto. exists StLtSeen, s'. exact R.
    + destruct (tailText_ok (MCdata y) st ts s p x r (slash r)) as (s' & R); auto. exists StLtSeen, s'. exact R.
    + destruct (tailText_ok (MPi n v) st ts s p x r (slash r)) as (s' & R); auto. exists StLtSeen, s'. exact R.
    + rewrite Hb in * by auto. destruct (tailDtd_ok st ts s p x r) as (s' & R); auto. exists StLtSeen, s'.
      unfold gapToks. rewrite Hb by auto. cbn [is_open andb negb]. rewrite app_nil_r. exact R.
  - destruct Hg as (He & Hw & _). destruct m as [n a t e|n w'|y|y|n v|y]; try discriminate He. cbn [tailOf].
    destruct Hf as (c & u' & -> & Ho). rewrite <- app_assoc in H. cbn [app] in H. cbn [gapToks]. rewrite app_nil_r, zlen_app, zlen_cons.
    destruct (pseudo_ok st ts s p w c u' r) as (s' & R); auto. exists StLtSeen, s'.
    replace (p + (zlen w + (zlen u' + 1))) with (p + zlen w + 1 + zlen u') by lia. exact R.
Qed.


(** ** What a tail read, if parsing succeeds afterwards *)
Lemma nonblank_inv st ts s p l w c u k ps n sf : Quiet st ts s -> At p l -> l = w ++ c :: u ++ k -> blank w = true -> space c = false ->
  begins c u k -> At (p + zlen w + 1 + zlen u) k -> ps = StText ->
  loop n ps (mv (p + zlen w + 1 + zlen u) (set_cur (b2z c) (set_last p s))) = ROk tt sf ->
  exists t r, k = t ++ x3c :: r /\ l = (w ++ c :: u ++ t) ++ x3c :: r /\ text (w ++ c :: u ++ t) /\ blank (w ++ c :: u ++ t) = false /\ st <> [].
Proof.
  intros Q H E Hw Hc Hb Hk -> K. apply loop_inv in K; [|discriminate]. destruct K as (n' & ps' & s' & -> & K & _).
  apply (text_inv _ k) in K; [|exact (base_ascii _ _ (quiet_base _ _ _ Q))|exact Hk]. destruct K as (D & t & r & -> & Ht).
  exists t, r. split; [reflexivity|]. split; [rewrite E, <- app_assoc; cbn [app]; rewrite <- app_assoc; reflexivity|].
  split; [apply text_blank; [exact Hw|]; inversion Hb; subst; [apply T_char; assumption | eapply text_other; [eassumption|exact Ht|eauto]]|].
  split; [rewrite blank_app; cbn; rewrite Hc; apply andb_false_r|].
  intros ->. pose proof Q as (_ & D' & _). change (0 <= s_depth s) in D. rewrite D' in D. cbv in D. apply D. reflexivity.
Qed.
Lemma lt_lit x r : x ++ x3c :: r = (x ++ lit "<") ++ r.
Proof. rewrite <- app_assoc. reflexivity. Qed.
Lemma tailText_inv m st ts s p l n sf : Quiet st ts s -> Pos p s -> At p l -> is_end m = false -> is_doctype m = false ->
  andThen n tailText s = ROk tt sf -> exists x r, l = x ++ x3c :: r /\ wf_gap m st (GText x).
Proof.
  intros Q P H M1 M2 K. apply andThen_inv in K. destruct K as (ps & s1 & K & L). unfold tailText in K. run_in K.
  eapply tail_read_inv in K; [|eassumption..]. destruct K as (w & c & r & E & Hw & Hc & H1 & K). run_in K.
  destruct (b2z c =? 60) eqn:Ec.
  - bytes. exists w, r. split; [exact E|]. split; [rewrite <- (app_nil_r w); apply text_blank; [exact Hw|constructor]|].
    split; [auto|]. rewrite M1. discriminate.
  - apply getNext_text in K; [|exact Ec].
    change (adv (p + zlen w + 1) (b2z c) (set_last p s)) with (mv (p + zlen w + 1) (set_cur (b2z c) (set_last p s))) in K.
    eapply textStart_inv in K; [|exact (base_ascii _ _ (quiet_base _ _ _ Q))|exact H1].
    destruct K as (u & k & -> & Hb & K1 & K2 & Hk & ->).
    assert (ps = StText) as -> by (destruct (isContentChar (b2z c)); [apply K1 | apply K2]; reflexivity).
    eapply nonblank_inv in L; try eassumption; [|reflexivity]. destruct L as (t & r & _ & E2 & Ht & Hn & Hst).
    eexists _, r. split; [exact E2|]. split; [exact Ht|]. split; [|rewrite M1; discriminate]. intros [?|?]; congruence.
Qed.
Lemma tailDtd_inv m st ts s p l n sf : Quiet st ts s -> Pos p s -> At p l -> is_end m = false ->
  andThen n tailDtd s = ROk tt sf -> exists x r, l = x ++ x3c :: r /\ wf_gap m st (GText x).
Proof.
  intros Q [Po Pr] H M1 K. apply andThen_inv in K. destruct K as (ps & s1 & K & L). unfold tailDtd in K.
  eapply inv_nextWs in K; [|exact (base_ascii _ _ (quiet_base _ _ _ Q))|rewrite Pr; exact H]. destruct K as (w & c & r & -> & Hw & Hc & H1 & K). run_in K.
  destruct (b2z c =? 60) eqn:Ec; [|apply parseErr_not in K; contradiction]. bytes. exists w, r. split; [reflexivity|].
  split; [rewrite <- (app_nil_r w); apply text_blank; [exact Hw|constructor]|]. split; [auto|]. rewrite M1. discriminate.
Qed.
Lemma tailEnd_inv m st ts s p l n sf : Quiet st ts s -> Pos p s -> At p l -> st <> [] -> is_end m = true -> is_doctype m = false -> is_start m = false ->
  andThen n tailEnd s = ROk tt sf -> exists g r, l = render_gap g ++ r /\ wf_gap m st g /\ follows m g r.
Proof.
  intros Q P H Hst M1 M2 M3 K. pose proof Q as (_ & D & _). apply andThen_inv in K. destruct K as (ps & s1 & K & L). unfold tailEnd in K. run_in K.
  rewrite D, (depth_not _ Hst) in K. run_in K.
  eapply tail_read_inv in K; [|eassumption..]. destruct K as (w & c & r & E & Hw & Hc & H1 & K). run_in K.
  destruct (b2z c =? 60) eqn:Ec.
  - bytes. exists (GText w), r. cbn [render_gap wf_gap follows]. split; [rewrite <- lt_lit; exact E|]. split; [|rewrite M3; discriminate].
    split; [rewrite <- (app_nil_r w); apply text_blank; [exact Hw|constructor]|].
    split; [auto|]. intros _. left. exact Hw.
  - change (textStart (b2z c) StLtSeen (mv (p + zlen w + 1) (set_cur (b2z c) (set_last p s))) = ROk ps s1) in K.
    eapply textStart_inv in K; [|exact (base_ascii _ _ (quiet_base _ _ _ Q))|exact H1].
    destruct K as (u & k & -> & Hb & K1 & K2 & Hk & ->). destruct (isContentChar (b2z c)) eqn:Ecc.
    + destruct (K1 eq_refl) as [-> ->]. eapply nonblank_inv in L; try eassumption; [|reflexivity]. destruct L as (t & r & _ & E2 & Ht & Hn & _).
      eexists (GText _), r. cbn [render_gap wf_gap follows]. split; [rewrite <- lt_lit; exact E2|]. split; [|rewrite M3; discriminate].
      split; [exact Ht|]. split; [intros [?|?]; congruence|]. intros _. right. exists w, c, ([] ++ t). repeat split; try assumption; apply isContent_byte in Ecc; apply Ecc.
    + destruct (K2 eq_refl) as [Ho ->]. exists (GPseudo w (c :: u)), k. cbn [render_gap wf_gap follows].
      split; [rewrite <- app_assoc; exact E|]. split; [|eauto]. split; [exact M1|]. split; [exact Hw|].
      inversion Ho; subst; [left; assumption | right; exists k0; reflexivity].
Qed.
Lemma tailElem_inv m st ts s p l n sf : Quiet st ts s -> Pos p s -> At p l -> st <> [] -> is_end m = false -> is_doctype m = false ->
  andThen n (processElementTail cf) s = ROk tt sf -> exists x r, l = x ++ x3c :: r /\ wf_gap m st (GText x) /\ follows m (GText x) r.
Proof.
  intros Q P H Hst M1 M2 K. pose proof Q as (_ & D & _). apply andThen_inv in K. destruct K as (ps & s1 & K & L). unfold processElementTail in K. run_in K.
  rewrite D, (depth_not _ Hst) in K. run_in K.
  eapply tail_read_inv in K; [|eassumption..]. destruct K as (w & c & r & E & Hw & Hc & H1 & K). run_in K.
  destruct (b2z c =? 60) eqn:Ec.
  - bytes. exists w, r. split; [exact E|]. split.
    + split; [rewrite <- (app_nil_r w); apply text_blank; [exact Hw|constructor]|]. split; [auto|]. rewrite M1. discriminate.
    + cbn. intros _ _ ->. run_in K. rewrite (ws_quiet _ _ _ Q) in K. cbv iota in K. run_in K.
      eapply inv_skip in K; [|exact H1]. destruct K as (? & ? & ? & _). discriminate.
  - change (textStart (b2z c) StText (mv (p + zlen w + 1) (set_cur (b2z c) (set_last p s))) = ROk ps s1) in K.
    eapply textStart_inv in K; [|exact (base_ascii _ _ (quiet_base _ _ _ Q))|exact H1].
    destruct K as (u & k & -> & Hb & K1 & K2 & Hk & ->).
    assert (ps = StText) as -> by (destruct (isContentChar (b2z c)); [apply K1 | apply K2]; reflexivity).
    eapply nonblank_inv in L; try eassumption; [|reflexivity]. destruct L as (t & r & _ & E2 & Ht & Hn & _).
    eexists _, r. split; [exact E2|]. split; [|cbn; congruence].
    split; [exact Ht|]. split; [|rewrite M1; discriminate]. intros [?|?]; congruence.
Qed.
Lemma gap_inv m st ts s p l n sf : AfterM m p st ts s -> (is_start m || is_end m = true -> st <> []) -> At p l ->
  andThen n (tailOf m) s = ROk tt sf -> exists g r, l = render_gap g ++ r /\ wf_gap m st g /\ follows m g r.
Proof.
  intros (Q & P & _) Hst H K.
  assert (G : (exists x r, l = x ++ x3c :: r /\ wf_gap m st (GText x) /\ follows m (GText x) r) ->
              exists g r, l = render_gap g ++ r /\ wf_gap m st g /\ follows m g r).
  { intros (x & r & E & R). exists (GText x), r. cbn [render_gap]. rewrite <- lt_lit. auto. }
  destruct m as [nm a t e|nm w|y|y|nm v|y]; cbn [tailOf is_start is_end orb] in *.
  - apply G. eapply tailElem_inv; try eassumption; auto.
  - eapply tailEnd_inv; try eassumption; auto.
  - apply G. eapply (tailText_inv (MComment y)) in K; try eassumption; auto. destruct K as (x & r & E & W). exists x, r. repeat split; try assumption; try apply W. discriminate.
  - apply G. eapply (tailText_inv (MCdata y)) in K; try eassumption; auto. destruct K as (x & r & E & W). exists x, r. repeat split; try assumption; try apply W. discriminate.
  - apply G. eapply (tailText_inv (MPi nm v)) in K; try eassumption; auto. destruct K as (x & r & E & W). exists x, r. repeat split; try assumption; try apply W. discriminate.
  - apply G. eapply (tailDtd_inv (MDoctype y)) in K; try eassumption; auto. destruct K as (x & r & E & W). exists x, r. repeat split; try assumption; try apply W. discriminate.
Qed.
End Gap.
