(** Documents as trees: an optional prolog of comments and PIs, one root element,
    and an epilog.  Every element carries its children and one name, so end tags
    match start tags by construction.  Nothing here refers to the model of the
    parser. *)
From Verif Require Import GoBase SpecChar SpecDoc.

(** An element with an end tag: name, attributes, white space before '>', what
    stands between its start tag and the next markup, its children each with what
    follows it, white space before the '>' of the end tag.  A leaf is an
    empty-element tag, a comment, a CDATA section, a PI or a DOCTYPE. *)
Inductive tree : Type :=
| Leaf (m : markup)
| Elem (n : list byte) (atts : list attr) (tail : list byte) (g : gap) (kids : list (tree * gap)) (w : list byte).
Definition leafy (m : markup) : bool := match m with MStart _ _ _ false | MEnd _ _ => false | _ => true end.
(** The last markup of a tree *)
Definition last_of (t : tree) : markup := match t with Leaf m => m | Elem n _ _ _ _ w => MEnd n w end.

(** ** Bytes, without the leading '<'; a gap ends with the '<' of the next markup. *)
Fixpoint render_tree (t : tree) : list byte :=
  match t with
  | Leaf m => render_markup m
  | Elem n atts tail g kids w =>
      n ++ render_attrs atts ++ tail ++ lit ">" ++ render_gap g ++
      concat (map (fun p => match p with (k, g') => render_tree k ++ render_gap g' end) kids) ++
      lit "/" ++ n ++ w ++ lit ">"
  end.

(** ** Conditions.  [st] lists the names of the enclosing elements, innermost first. *)
Fixpoint tree_wf (j : list byte) (st : list (list byte)) (t : tree) : Prop :=
  match t with
  | Leaf m => leafy m = true /\ wf_markup j st m
  | Elem n atts tail g kids w =>
      wf_markup j st (MStart n atts tail false) /\ wf_gap (MStart n atts tail false) (n :: st) g /\ blank w = true /\
      (fix all (l : list (tree * gap)) : Prop :=
         match l with
         | [] => True
         | (k, g') :: r => (tree_wf [] (n :: st) k /\ wf_gap (last_of k) (n :: st) g') /\ all r
         end) kids
  end.
(** The root is an element, with or without an end tag. *)
Definition rooted (t : tree) : Prop := match t with Leaf (MStart _ _ _ true) | Elem _ _ _ _ _ _ => True | _ => False end.

(** ** Documents *)
Record xdoc : Type := XDoc {
  x_start : start; x_prolog : list (markup * gap); x_root : tree; x_epis : list epi; x_end : list byte }.
Definition prolog_wf (j : list byte) (l : list (markup * gap)) : Prop :=
  match l with
  | [] => True
  | (m, g) :: r => (wf_markup j [] m /\ wf_gap m [] g) /\ Forall (fun p => wf_markup [] [] (fst p) /\ wf_gap (fst p) [] (snd p)) r
  end /\
  Forall (fun p => match fst p with MComment _ | MPi _ _ => True | _ => False end) l.
Definition root_junk (x : xdoc) : list byte := match x_prolog x with [] => junk_of (x_start x) | _ => [] end.
Definition render_xbody (x : xdoc) : list byte :=
  match x_prolog x with
  | [] => lead (junk_of (x_start x)) (match x_root x with Leaf m => m | Elem n a t _ _ _ => MStart n a t false end)
  | _ :: _ => junk_of (x_start x)
  end ++
  concat (map (fun p => render_markup (fst p) ++ render_gap (snd p)) (x_prolog x)) ++ render_tree (x_root x).
Definition render_x (x : xdoc) : list byte :=
  render_start (x_start x) ++ render_xbody x ++ render_epilog (x_epis x) (x_end x).
Definition xwf (x : xdoc) : Prop :=
  wf_start (x_start x) (render_xbody x) /\ prolog_wf (junk_of (x_start x)) (x_prolog x) /\
  rooted (x_root x) /\ tree_wf (root_junk x) [] (x_root x) /\ wf_epilog (x_epis x) (x_end x).

(** ** Names of the elements of one level of a tree, in document order *)
Definition own_name (t : tree) : list (list byte) :=
  match t with Leaf (MStart n _ _ _) => [n] | Elem n _ _ _ _ _ => [n] | _ => [] end.
Definition children (t : tree) : list tree := match t with Leaf _ => [] | Elem _ _ _ _ kids _ => map fst kids end.
Fixpoint level_names (k : nat) (t : tree) : list (list byte) :=
  match k with O => own_name t | S k' => flat_map (level_names k') (children t) end.
(** The buffer shows the document in the window [w], followed by [r], as in SpecWindow.v. *)
Definition xshows (x : xdoc) (w r : list byte) : Prop :=
  w = render_x x \/
  (w ++ lit ">" = render_x x /\ x_epis x <> [] /\ exists t, r = x3e :: t) \/
  (w ++ lit " " = render_x x /\ exists b t, r = b :: t /\ b <> x3e).
