(** Property theorems C59-C61 (hash sizes, modifier and auto-pilot construction). *)
From Verif Require Import Lib Buffer ParserPrim Nav Misc BufferProofs.

(** ** C59 *)
(** the step every threshold takes: widths and the sizes they are for *)
Lemma width_of_size s : 3 <= determineHashWidth s <= 22 /\ (s < 2^30 -> s <= 256 * 2^determineHashWidth s).
Proof.
  unfold determineHashWidth.
  repeat match goal with |- context [if ?x <? ?y then _ else _] => destruct (x <? y) eqn:?; [split; [lia|]; intros; lia|] end.
  split; [lia|]. intros; lia.
Qed.
Theorem C59_width_monotone : forall a b, a <= b -> determineHashWidth a <= determineHashWidth b.
Proof.
  intros a b H. unfold determineHashWidth at 2.
  repeat match goal with |- context [_ <= (if ?x <? ?y then _ else _)] => destruct (x <? y) eqn:?;
    [unfold determineHashWidth; repeat match goal with |- context [(if ?u <? ?v then _ else _) <= _] => destruct (u <? v) eqn:?; [lia|] end; lia|] end.
  apply width_of_size.
Qed.
Print Assumptions C59_width_monotone.
(** the fields of the table made for a list of sizes: the last size decides *)
Theorem C59_hash_width : forall sizes s,
  let h := newIntHash (sizes ++ [s]) in
  3 <= h_width h <= 22 /\ h_hashWidth h = 2 ^ h_width h /\ h_storageCap h = 2 ^ h_width h /\ h_storage h = 0 /\ h_mask h = 1 /\
  (s < 2^30 -> s <= 256 * h_hashWidth h) /\ h = newIntHash [s].
Proof.
  intros sizes s h. assert (M : forall l h0, h_mask (fold_left (fun h s => withSize s h) l h0) = h_mask h0).
  { induction l as [|x l IH]; intros h0; [reflexivity|]. cbn [fold_left]. rewrite IH. reflexivity. }
  assert (E : h = newIntHash [s]).
  { unfold h, newIntHash. rewrite fold_left_app. cbn [fold_left]. unfold withSize. rewrite M. reflexivity. }
  destruct (width_of_size s) as [W1 W2]. rewrite E. unfold newIntHash. cbn [fold_left]. unfold withSize.
  cbn [h_width h_hashWidth h_storageCap h_storage h_mask].
  assert (P : 2 ^ determineHashWidth s <= 2^22) by (apply Z.pow_le_mono_r; lia).
  assert (P0 : 0 < 2 ^ determineHashWidth s) by (apply Z.pow_pos_nonneg; lia).
  rewrite shl64_mul by lia. rewrite Z.mul_1_l. repeat split; try lia; exact W2.
Qed.
Print Assumptions C59_hash_width.
Theorem C59_no_option : newIntHash [] = mkHash 0 1 1 0 1.
Proof. reflexivity. Qed.
(** the thresholds are tight: one less bit would not do below 2^23 *)
Theorem C59_width_least : forall s, 2^8 <= s < 2^23 -> 2 ^ (determineHashWidth s - 1) * 32 <= s < 2 ^ determineHashWidth s * 32.
Proof.
  intros s H. unfold determineHashWidth.
  repeat match goal with |- context [if ?x <? ?y then _ else _] => destruct (x <? y) eqn:?; [lia|] end. lia.
Qed.
Print Assumptions C59_width_least.
(** below 256 the width is 3, from 2^23 it covers two powers of two at a time *)
Theorem C59_width_ends : forall s,
  (s < 2^8 -> determineHashWidth s = 3) /\
  (2^23 <= s -> 2 ^ (2 * determineHashWidth s - 15) <= s) /\ (2^23 <= s < 2^29 -> s < 2 ^ (2 * determineHashWidth s - 13)).
Proof.
  intros s. unfold determineHashWidth.
  repeat match goal with |- context [if ?x <? ?y then _ else _] => destruct (x <? y) eqn:?; 
    [split; [intros; lia|]; split; intros; [change (2 ^ _) with 8388608 || change (2 ^ _) with 33554432 || change (2 ^ _) with 134217728 || idtac|]; lia|] end.
  change (2 * 22 - 15) with 29. change (2 * 22 - 13) with 31. lia.
Qed.
Print Assumptions C59_width_ends.
Example C59_case : h_width (newIntHash [7; 2^20; 300]) = 4 /\ h_hashWidth (newIntHash [2^30]) = 2^22 /\ determineHashWidth (-5) = 3.
Proof. repeat split. Qed.

(** ** C60 *)
(** the verdict on one option *)
Inductive mod_verdict (o : option nav) : option errtype -> Prop :=
| mv_nil : o = None -> mod_verdict o (Some TInvalidArgument)
| mv_ok n : o = Some n -> n_enc n = 0 \/ n_enc n = 19 -> mod_verdict o None
| mv_enc n : o = Some n -> n_enc n <> 0 -> n_enc n <> 19 -> mod_verdict o (Some TModify).
Definition charset_name (enc : Z) : string := if enc =? 0 then "ASCII"%string else "UTF8"%string.

Lemma withNav_cases o m :
  (mod_verdict o None /\ exists n, o = Some n /\ modWithNavigation o m =
     Ok (mkMod (Some n) (m_long m) (m_obj m) (Some (newIntHash [b_size (n_vtd n)])) (Some (newIntHash [b_size (n_vtd n)])) (n_enc n) (charset_name (n_enc n)))) \/
  (exists t e, mod_verdict o (Some t) /\ modWithNavigation o m = Err e /\ err_type e = t).
Proof.
  destruct o as [n|].
  - cbn [modWithNavigation]. unfold getCharsetFromEncoding, getEncoding, getVtdBufferSize, FormatAscii, FormatUtf8.
    destruct (n_enc n =? 0) eqn:E0.
    + left. split; [apply (mv_ok _ n); [reflexivity | lia]|]. exists n. split; [reflexivity|]. cbn [obind]. unfold charset_name. rewrite E0. reflexivity.
    + destruct (n_enc n =? 19) eqn:E1.
      * left. split; [apply (mv_ok _ n); [reflexivity | lia]|]. exists n. split; [reflexivity|]. cbn [obind]. unfold charset_name. rewrite E0. reflexivity.
      * right. exists TModify. eexists. split; [apply (mv_enc _ n); [reflexivity | lia | lia]|]. split; reflexivity.
  - right. exists TInvalidArgument. eexists. split; [apply mv_nil; reflexivity|]. split; reflexivity.
Qed.
Lemma verdict_fun o a b : mod_verdict o a -> mod_verdict o b -> a = b.
Proof.
  intros H1 H2. inversion H1; inversion H2; subst; try congruence;
    repeat match goal with H : Some _ = Some _ |- _ => injection H as -> end; try reflexivity; exfalso; intuition.
Qed.
Lemma foldErr {A B} (f : A -> B -> out B) l e : fold_left (fun acc o => obind acc (f o)) l (Err e) = Err e.
Proof. induction l; [reflexivity | exact IHl]. Qed.
Lemma mod_fold opts : forall m,
  (Forall (fun o => mod_verdict o None) opts /\ exists m', fold_left (fun acc o => obind acc (modWithNavigation o)) opts (Ok m) = Ok m' /\
      m_long m' = m_long m /\ m_obj m' = m_obj m /\ (opts = [] -> m' = m) /\
      forall pre n, opts = pre ++ [Some n] -> m_nav m' = Some n /\ m_enc m' = n_enc n /\ m_charset m' = charset_name (n_enc n) /\
         m_ins m' = Some (newIntHash [b_size (n_vtd n)]) /\ m_del m' = m_ins m') \/
  (exists pre o post t e, opts = pre ++ o :: post /\ Forall (fun o => mod_verdict o None) pre /\ mod_verdict o (Some t) /\
      fold_left (fun acc o => obind acc (modWithNavigation o)) opts (Ok m) = Err e /\ err_type e = t).
Proof.
  induction opts as [|o opts IH]; intros m.
  - left. split; [constructor|]. exists m. repeat split; destruct pre; discriminate.
  - cbn [fold_left obind]. destruct (withNav_cases o m) as [(V & n & -> & E)|(t & e & V & E & T)].
    + rewrite E. destruct (IH (mkMod (Some n) (m_long m) (m_obj m) (Some (newIntHash [b_size (n_vtd n)])) (Some (newIntHash [b_size (n_vtd n)])) (n_enc n) (charset_name (n_enc n))))
        as [(F & m' & E' & L & O & N & P)|(pre & o & post & t & e & E1 & F & V' & E' & T)].
      * left. split; [constructor; assumption|]. exists m'. split; [exact E'|]. split; [exact L|]. split; [exact O|]. split; [discriminate|].
        intros pre n' Ep. destruct pre as [|p pre]; [|injection Ep as _ Ep; exact (P _ _ Ep)].
        injection Ep as -> ->. rewrite (N eq_refl). repeat split.
      * right. exists (Some n :: pre), o, post, t, e. split; [rewrite E1; reflexivity|]. split; [constructor; assumption|]. split; [exact V'|]. split; [exact E' | exact T].
    + rewrite E. right. exists [], o, opts, t, e. split; [reflexivity|]. split; [constructor|]. split; [exact V|]. split; [apply foldErr | exact T].
Qed.
Definition mod_base : modifier := mkMod None buf_default buf_default None None 0 EmptyString.
Lemma newMod_fold opts : newXmlModifier opts = fold_left (fun acc o => obind acc (modWithNavigation o)) opts (Ok mod_base).
Proof. reflexivity. Qed.
Theorem C60_modifier_ok : forall opts, (exists m, newXmlModifier opts = Ok m) <-> Forall (fun o => mod_verdict o None) opts.
Proof.
  intros opts. rewrite newMod_fold.
  split.
  - intros [m E]. destruct (mod_fold opts mod_base) as [[F _]|(pre & o & post & t & e & E1 & F & V & E' & T)]; [exact F|].
    congruence.
  - intros F. destruct (mod_fold opts mod_base) as [(_ & m' & E & _)|(pre & o & post & t & e & E1 & _ & V & E' & T)]; [exists m'; exact E|].
    exfalso. subst opts. apply Forall_app in F as [_ F]. inversion F; subst. pose proof (verdict_fun _ _ _ V H1). discriminate.
Qed.
Print Assumptions C60_modifier_ok.
(** the first failing option decides the error; whatever follows is not looked at *)
Theorem C60_first_failure : forall pre o post t, Forall (fun o => mod_verdict o None) pre -> mod_verdict o (Some t) ->
  exists e, newXmlModifier (pre ++ o :: post) = Err e /\ err_type e = t.
Proof.
  intros pre o post t F V. rewrite newMod_fold.
  rewrite fold_left_app.
  destruct (mod_fold pre mod_base) as [(_ & m' & E & _)|(pre' & o' & post' & t' & e & E1 & _ & V' & E' & T)].
  - cbn [fold_left]. rewrite E. cbn [obind]. destruct (withNav_cases o m') as [(V2 & _)|(t2 & e & V2 & E2 & T2)]; [pose proof (verdict_fun _ _ _ V V2); discriminate|].
    rewrite E2. exists e. split; [apply foldErr|]. pose proof (verdict_fun _ _ _ V V2). congruence.
  - exfalso. subst pre. apply Forall_app in F as [_ F]. inversion F; subst. pose proof (verdict_fun _ _ _ V' H1). discriminate.
Qed.
Print Assumptions C60_first_failure.
(** the last navigator is the one modified; both hashes are sized for its tokens *)
Theorem C60_last_navigator : forall pre n m, newXmlModifier (pre ++ [Some n]) = Ok m ->
  m_nav m = Some n /\ m_enc m = n_enc n /\ m_charset m = charset_name (n_enc n) /\
  m_ins m = Some (newIntHash [b_size (n_vtd n)]) /\ m_del m = m_ins m /\ b_size (m_long m) = 0 /\ b_size (m_obj m) = 0.
Proof.
  intros pre n m E. rewrite newMod_fold in E.
  destruct (mod_fold (pre ++ [Some n]) mod_base) as [(_ & m' & E' & L & O & _ & P)|(pre' & o' & post' & t' & e & E1 & _ & V' & E' & T)].
  - assert (m = m') by congruence. subst m'. destruct (P _ _ eq_refl) as (P1 & P2 & P3 & P4 & P5).
    rewrite L, O. repeat split; assumption.
  - congruence.
Qed.
Print Assumptions C60_last_navigator.
Definition encNav (e : Z) : nav := mkNav [-1] 0 e false false 0 [] (fst (appendAll (opt_buf 10) [1; 2; 3])) (opt_buf 10) (opt_buf 10) (opt_buf 10) 0 0 0 0 0 0 0.
Example C60_case : (exists m, newXmlModifier [Some (encNav 0); Some (encNav 19)] = Ok m /\ m_charset m = "UTF8"%string) /\
  (exists e, newXmlModifier [Some (encNav 19); Some (encNav 1); None] = Err e /\ err_type e = TModify).
Proof. split; eexists; split; vm_compute; reflexivity. Qed.

(** ** C61 *)
Definition last_nav (opts : list pilotopt) : option nav :=
  fold_left (fun acc o => match o with PNav (Some n) => Some n | _ => acc end) opts None.
Definition last_caching (opts : list pilotopt) : bool :=
  fold_left (fun acc o => match o with PCaching b => b | _ => acc end) opts true.
Lemma pilot_fold opts : forall p,
  (~ In (PNav None) opts -> fold_left (fun acc o => obind acc (applyPilotOpt o)) opts (Ok p) =
     Ok (mkPilot (fold_left (fun acc o => match o with PNav (Some n) => Some n | _ => acc end) opts (p_nav p)) (p_iterType p) (p_ft p)
                 (fold_left (fun acc o => match o with PCaching b => b | _ => acc end) opts (p_caching p)))) /\
  (In (PNav None) opts -> exists e, fold_left (fun acc o => obind acc (applyPilotOpt o)) opts (Ok p) = Err e /\ err_type e = TInvalidArgument).
Proof.
  induction opts as [|o opts IH]; intros p.
  - split; [intros _; destruct p; reflexivity | intros []].
  - cbn [fold_left obind]. split.
    + intros H. assert (H1 : ~ In (PNav None) opts) by (intros X; apply H; right; exact X).
      destruct o as [[n|]|b]; [| exfalso; apply H; left; reflexivity |]; cbn [applyPilotOpt]; rewrite (proj1 (IH _) H1); reflexivity.
    + intros H. destruct o as [[n|]|b]; cbn [applyPilotOpt].
      * destruct H as [H|H]; [discriminate|]. apply (proj2 (IH _) H).
      * rewrite foldErr. eexists. split; reflexivity.
      * destruct H as [H|H]; [discriminate|]. apply (proj2 (IH _) H).
Qed.
Theorem C61_autopilot : forall opts,
  (~ In (PNav None) opts -> exists p, newAutoPilot opts = Ok p /\ p_nav p = last_nav opts /\ p_caching p = last_caching opts) /\
  (In (PNav None) opts -> exists e, newAutoPilot opts = Err e /\ err_type e = TInvalidArgument).
Proof.
  intros opts. split; intros H.
  - eexists. split; [apply (proj1 (pilot_fold opts _) H)|]. split; reflexivity.
  - apply (proj2 (pilot_fold opts _) H).
Qed.
Print Assumptions C61_autopilot.
Theorem C61_last_wins : forall opts n b,
  (~ In (PNav None) opts -> (exists p, newAutoPilot (opts ++ [PNav (Some n)]) = Ok p /\ p_nav p = Some n) /\
     (exists p, newAutoPilot (opts ++ [PCaching b]) = Ok p /\ p_caching p = b)) /\
  (exists p, newAutoPilot [] = Ok p /\ p_caching p = true /\ p_nav p = None).
Proof.
  intros opts n b. split.
  - intros H. split.
    + destruct (C61_autopilot (opts ++ [PNav (Some n)])) as [A _]. destruct A as (p & E & N & _).
      { intros X. apply in_app_or in X as [X|[X|[]]]; [exact (H X) | discriminate]. }
      exists p. split; [exact E|]. rewrite N. unfold last_nav. rewrite fold_left_app. reflexivity.
    + destruct (C61_autopilot (opts ++ [PCaching b])) as [A _]. destruct A as (p & E & _ & N).
      { intros X. apply in_app_or in X as [X|[X|[]]]; [exact (H X) | discriminate]. }
      exists p. split; [exact E|]. rewrite N. unfold last_caching. rewrite fold_left_app. reflexivity.
  - eexists. split; [reflexivity|]. split; reflexivity.
Qed.
Print Assumptions C61_last_wins.
Example C61_case : exists p, newAutoPilot [PCaching false; PNav (Some (encNav 0)); PCaching true; PNav (Some (encNav 7))] = Ok p /\
  p_caching p = true /\ option_map n_enc (p_nav p) = Some 7.
Proof. eexists. repeat split. Qed.
