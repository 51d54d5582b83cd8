(** Which of the documents of SpecDoc.v the parser accepts with namespace
    awareness.  Nothing here refers to the model of the parser.

    The parser keeps two lists that only grow: the declared prefixes in document
    order, and for every start tag, in document order, how many declarations were
    in scope when it ended.  The declarations "in scope" are always the FIRST
    [g_in] of the former list.  A start tag that is not the first child of its
    parent goes back to the number recorded by the tag whose POSITION in the
    latter list is the depth of the parent, whichever element that tag belongs
    to. *)
From Verif Require Import GoBase SpecChar SpecDoc.

Definition same (a b : list byte) : bool := if list_eq_dec byte_eq_dec a b then true else false.
Definition member (x : list byte) (l : list (list byte)) : bool := existsb (same x) l.
Fixpoint all_distinct (l : list (list byte)) : bool :=
  match l with [] => true | x :: t => negb (member x t) && all_distinct t end.
Fixpoint starts (p l : list byte) : bool :=
  match p, l with
  | [], _ => true
  | a :: p', b :: l' => Byte.eqb a b && starts p' l'
  | _, [] => false
  end.

(** ** Attribute names *)
(** What precedes and what follows the last colon; no prefix if there is none. *)
Definition prefix_of (nm : list byte) : list byte := firstn (Z.to_nat (prefix_from 1 nm)) nm.
Definition local_of (nm : list byte) : list byte := skipn (Z.to_nat (prefix_from 1 nm + 1)) nm.
Definition is_default (nm : list byte) : bool := zlen nm =? 5.          (* "xmlns" itself *)
Definition declares (a : attr) : bool := ns_name (a_name a) && negb (is_default (a_name a)).
(** Attributes whose prefix has to be declared. *)
Definition prefixed (nm : list byte) : bool :=
  negb (ns_name nm) && negb (prefix_from 1 nm =? 0) && negb (same (prefix_of nm) (lit "xml")).
Definition prefixed_names (atts : list attr) : list (list byte) := filter prefixed (map a_name atts).
(** Prefixes that cannot be declared. *)
Definition reserved (p : list byte) : bool := same p (lit "xmlns") || same p (lit "xml").

(** ** Element names; [j] is the junk of the first tag *)
Definition tag_prefix (j n : list byte) : list byte := firstn (Z.to_nat (prefix_from (zlen j + 1) n)) n.
Definition has_prefix (j n : list byte) : bool := negb (prefix_from (zlen j + 1) n =? 0).
Definition colon_at (j n : list byte) (i : Z) : bool :=
  (zlen j <? i) && match nth_error n (Z.to_nat i) with Some b => Byte.eqb b x3a | None => false end.
(** Departure: names with a colon at index 10 are also taken for xmlns:... *)
Definition xmlns_tag (j n : list byte) : bool := starts (lit "xmlns") n && (colon_at j n 5 || colon_at j n 10).
(** Departure: prefixes of seven bytes are also taken for xml. *)
Definition xml_tag (j n : list byte) : bool :=
  starts (lit "xml") n && ((prefix_from (zlen j + 1) n =? 3) || (prefix_from (zlen j + 1) n =? 7)).

(** ** The lists *)
Record scope : Type := Scope {
  g_tags : list Z;               (* for every start tag so far: declarations in scope at its end *)
  g_level : Z;                   (* depth of the last start tag, plus one *)
  g_decls : list (list byte);    (* all prefixes declared so far *)
  g_in : Z }.                    (* how many of them are in scope *)
Definition no_scope : scope := Scope [] 0 [] 0.
Definition in_scope (k : scope) : list (list byte) := firstn (Z.to_nat (g_in k)) (g_decls k).
(** [Beyond]: outside the limits of this description. *)
Inductive answer : Type := Fine (k : scope) | Refused | Beyond.
Definition also (r : answer) (f : scope -> answer) : answer :=
  match r with Fine k => f k | Refused => Refused | Beyond => Beyond end.
Definition page : Z := 64.

(** A start tag at depth [d] (0 for the root) *)
Definition enter (d : Z) (k : scope) : answer :=
  if g_level k <=? d then Fine k
  else match znth (g_tags k) (d - 1) with
       | Some c => Fine (Scope (g_tags k) d (g_decls k) c)
       | None => Beyond
       end.
(** Departure: once all declarations are out of scope no other is accepted. *)
Definition declare (k : scope) (a : attr) : answer :=
  if ns_name (a_name a) then
    match a_value a with
    | x26 :: _ => Beyond                                                 (* the value starts with '&' *)
    | _ =>
        if is_default (a_name a) then Fine k
        else if reserved (local_of (a_name a)) then Refused
        else if (g_in k =? 0) && negb (zlen (g_decls k) =? 0) then Refused
        else if page <=? g_in k then Beyond
        else if same (a_value a) [] then Refused
        else Fine (Scope (g_tags k) (g_level k) (g_decls k ++ [local_of (a_name a)]) (g_in k + 1))
    end
  else Fine k.
Fixpoint declare_all (k : scope) (l : list attr) : answer :=
  match l with [] => Fine k | a :: t => also (declare k a) (fun k' => declare_all k' t) end.
(** The prefixes of a tag are among [ds]; [us]: the names of its attributes with a
    prefix *)
Definition covered (ds : list (list byte)) (j n : list byte) (us : list (list byte)) : bool :=
  forallb (fun nm => member (prefix_of nm) ds) us &&
  all_distinct (map local_of us) &&                                      (* departure: whatever their namespaces *)
  (negb (has_prefix j n) || member (tag_prefix j n) ds || xml_tag j n).
Definition qualified (j n : list byte) (us : list (list byte)) (k : scope) : bool := covered (in_scope k) j n us.
Definition leave (j n : list byte) (us : list (list byte)) (k : scope) : answer :=
  if page <=? g_level k then Beyond
  else if qualified j n us k then Fine (Scope (g_tags k ++ [g_in k]) (g_level k + 1) (g_decls k) (g_in k))
  else Refused.
Definition start_tag (j : list byte) (d : Z) (n : list byte) (atts : list attr) (k : scope) : answer :=
  if xmlns_tag j n then Refused
  else also (enter d k) (fun k1 => also (declare_all k1 atts) (leave j n (prefixed_names atts))).
Definition on_markup (j : list byte) (d : Z) (m : markup) (k : scope) : answer :=
  match m with MStart n atts _ _ => start_tag j d n atts k | _ => Fine k end.
Fixpoint scopes (j : list byte) (st : list (list byte)) (l : list (markup * gap)) (f : markup) (k : scope) : answer :=
  match l with
  | [] => on_markup j (zlen st) f k
  | (m, g) :: t => also (on_markup j (zlen st) m k) (scopes [] (after m st) t f)
  end.
Definition scopes_of (d : document) : answer := scopes (junk_of (d_start d)) [] (d_items d) (d_final d) no_scope.

(** ** The limits of this description *)
(** The start tags: junk, name, attributes *)
Definition tag : Type := (list byte * list byte * list attr)%type.
Definition tag_of (j : list byte) (m : markup) : list tag := match m with MStart n atts _ _ => [(j, n, atts)] | _ => [] end.
Fixpoint tags (j : list byte) (l : list (markup * gap)) (f : markup) : list tag :=
  match l with [] => tag_of j f | (m, _) :: t => tag_of j m ++ tags [] t f end.
Definition tags_of (d : document) : list tag := tags (junk_of (d_start d)) (d_items d) (d_final d).
Definition decls_of (x : tag) : list attr := filter declares (snd x).
(** No start tag inside more than 63 open elements *)
Definition shallow (st : list (list byte)) (m : markup) : bool := match m with MStart _ _ _ _ => zlen st <? page | _ => true end.
Fixpoint shallow_body (st : list (list byte)) (l : list (markup * gap)) (f : markup) : bool :=
  match l with [] => shallow st f | (m, _) :: t => shallow st m && shallow_body (after m st) t f end.
Definition plain_value (a : attr) : bool := match a_value a with x26 :: _ => negb (ns_name (a_name a)) | _ => true end.
Definition within_limits (d : document) : bool :=
  shallow_body [] (d_items d) (d_final d) &&
  (zlen (concat (map decls_of (tags_of d))) <=? page) &&
  forallb (fun x : tag => forallb plain_value (snd x)) (tags_of d).

(** ** Documents that declare prefixes on the root element only *)
Definition root_only (d : document) : bool := forallb (fun x : tag => zlen (decls_of x) =? 0) (tl (tags_of d)).
Definition declarable (a : attr) : bool := negb (reserved (local_of (a_name a))) && negb (same (a_value a) []).
Definition tag_ok (ds : list (list byte)) (x : tag) : bool :=
  let '(j, n, atts) := x in negb (xmlns_tag j n) && covered ds j n (prefixed_names atts).
(** What is declared can be declared, and every prefix used is declared. *)
Definition root_scope_ok (d : document) : bool :=
  match tags_of d with
  | [] => true
  | root :: _ =>
      forallb declarable (decls_of root) &&
      forallb (tag_ok (map (fun a => local_of (a_name a)) (decls_of root))) (tags_of d)
  end.
