(** The bytes each token of a document stands for. *)
From Verif Require Import GoBase SpecChar SpecDoc.

Definition attr_parts (a : attr) : list (list byte) := [a_name a; a_value a].
Definition markup_parts (m : markup) : list (list byte) :=
  match m with
  | MStart n atts _ _ => n :: flat_map attr_parts atts
  | MEnd _ _ => []
  | MComment x => [x]
  | MCdata x => [removelast x]          (* departure: without the last byte, see SpecDoc.v *)
  | MPi n None => [n; []]
  | MPi n (Some (_, x)) => [n; x]
  | MDoctype x => [x]
  end.
Definition gap_parts (m : markup) (g : gap) (next : markup) : list (list byte) :=
  match g with GText x => if blank x && negb (is_open m && is_end next) then [] else [x] | GPseudo _ _ => [] end.
Fixpoint body_parts (l : list (markup * gap)) (f : markup) : list (list byte) :=
  match l with
  | [] => markup_parts f
  | (m, g) :: t => markup_parts m ++ gap_parts m g (next_of t f) ++ body_parts t f
  end.
(** Departure: the quote after cp125 and windows-125 belongs to the value. *)
Definition enc_part (e : encoding) : list byte :=
  match e_value e with x75 :: _ | x55 :: _ => firstn 5 (e_value e) | x63 :: _ | x43 :: _ => firstn 6 (e_value e ++ [e_q2 e]) | _ => firstn 12 (e_value e ++ [e_q2 e]) end.
Definition start_parts (s : start) : list (list byte) :=
  match s with
  | SDecl d =>
      [lit "version"; lit "1." ++ [d_minor d]] ++
      match d_rest d with
      | None => []
      | Some (_, e, a) =>
          match e with Some e => [lit "encoding"; enc_part e] | None => [] end ++
          match a with Some a => [lit "standalone"; firstn (if s_yes a then 3 else 2) (sta_value a)] | None => [] end
      end
  | _ => []
  end.
Definition epi_parts (e : epi) : list (list byte) :=
  [p_target e; match p_value e with Some (_, x) => x | None => [] end].
Definition parts (d : document) : list (list byte) :=
  start_parts (d_start d) ++ body_parts (d_items d) (d_final d) ++ flat_map epi_parts (d_epis d).

(** The token [t] of the buffer [doc] is at the bytes [x], which do not end the
    buffer unless there are none, and its length field is
    the one of [x]: for names of elements and attributes the length is combined
    with the length of a prefix [p], which is 0 when the name has no colon. *)
Definition stands_for (doc : list byte) (t : tok) (x : list byte) : Prop :=
  (0 <= t_off t /\ t_off t + zlen x <= zlen doc /\ (x = [] \/ t_off t + zlen x < zlen doc)) /\ firstn (length x) (skipn (Z.to_nat (t_off t)) doc) = x /\
  0 <= t_type t <= 13 /\ -1 <= t_depth t <= 254 /\
  (t_type t = 0 -> exists p, 0 < zlen x <= 2047 /\ ~ In x0d x /\ 0 <= p /\ (~ In x3a x -> p = 0) /\ t_len t = Z.lor (2 * p) (zlen x)) /\
  (t_type t = 2 \/ t_type t = 3 -> exists p, 0 < zlen x <= 2047 /\ ~ In x0d x /\ 0 <= p <= 511 /\ (~ In x3a x -> p = 0) /\ t_len t = p * 2^11 + zlen x) /\
  (t_type t = 0 \/ t_type t = 2 \/ t_type t = 3 \/ t_len t = zlen x \/ t_type t = 11 /\ x = [] /\ t_len t = -1).
