(** What a document says, without its layout: declaration, comments, PIs, elements
    with their attributes and content.  White space between markups, the quotes and
    the spelling of tags are left out.  Nothing here refers to the model of the
    parser. *)
From Verif Require Import GoBase SpecChar SpecDoc SpecNested SpecNav.

Inductive item : Type :=
| IDecl (n v : list byte)
| IPi (n v : list byte)
| IComment (x : list byte)
| ICdata (x : list byte)
| IDoctype (x : list byte)
| IText (x : list byte)
| IAttr (n v : list byte)
| IElem (n : list byte) (l : list item).

Definition attr_item (a : attr) : item := IAttr (a_name a) (a_value a).
Definition pi_value (v : option (byte * list byte)) : list byte := match v with Some (_, x) => x | None => [] end.
Definition markup_items (m : markup) : list item :=
  match m with
  | MStart n atts _ _ => [IElem n (map attr_item atts)]
  | MEnd _ _ => []
  | MComment x => [IComment x]
  | MCdata x => [ICdata (removelast x)]          (* departure: without the last byte *)
  | MPi n v => [IPi n (pi_value v)]
  | MDoctype x => [IDoctype x]
  end.
Definition text_items (all : bool) (g : gap) : list item :=
  match g with GText x => if blank x && negb all then [] else [IText x] | GPseudo _ _ => [] end.
Fixpoint tree_items (t : tree) : list item :=
  match t with
  | Leaf m => markup_items m
  | Elem n atts _ g kids _ =>
      [IElem n (map attr_item atts ++ text_items (match kids with [] => true | _ => false end) g ++
        concat (map (fun p => match p with (k, g') => tree_items k ++ text_items false g' end) kids))]
  end.
Definition decl_items (s : start) (e : encoding -> list byte) : list item :=
  match s with
  | SDecl d =>
      [IDecl (lit "version") (lit "1." ++ [d_minor d])] ++
      match d_rest d with
      | None => []
      | Some (_, en, sa) =>
          match en with Some en => [IDecl (lit "encoding") (e en)] | None => [] end ++
          match sa with Some sa => [IDecl (lit "standalone") (firstn (if s_yes sa then 3 else 2) (sta_value sa))] | None => [] end
      end
  | _ => []
  end.
Definition outline (e : encoding -> list byte) (x : xdoc) : list item :=
  decl_items (x_start x) e ++
  flat_map (fun p => markup_items (fst p) ++ text_items false (snd p)) (x_prolog x) ++
  tree_items (x_root x) ++ map (fun p => IPi (p_target p) (pi_value (p_value p))) (x_epis x).
(** The same with LF for CR outside the names of elements and attributes *)
Fixpoint with_lf (i : item) : item :=
  match i with
  | IDecl n v => IDecl (map lf n) (map lf v)
  | IPi n v => IPi (map lf n) (map lf v)
  | IComment x => IComment (map lf x)
  | ICdata x => ICdata (map lf x)
  | IDoctype x => IDoctype (map lf x)
  | IText x => IText (map lf x)
  | IAttr n v => IAttr n (map lf v)
  | IElem n l => IElem n (map with_lf l)
  end.
Definition said (e : encoding -> list byte) (x : xdoc) : list item := map with_lf (outline e x).
