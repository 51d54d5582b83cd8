(** The content of a tree in document order: for every piece of information its kind
    (the token type), the depth recorded for it, and its bytes.  Nothing here refers
    to the model of the parser. *)
From Verif Require Import GoBase SpecChar SpecDoc SpecNested SpecNav.

Definition piece : Type := (Z * Z * list byte)%type.
Definition attr_pieces (d : Z) (a : attr) : list piece :=
  [((if ns_name (a_name a) then 3 else 2), d, a_name a); (4, d, a_value a)].
(** [d] is the depth of the innermost open element, -1 outside the root. *)
Definition markup_pieces (d : Z) (m : markup) : list piece :=
  match m with
  | MStart n atts _ _ => (0, d + 1, n) :: flat_map (attr_pieces (d + 1)) atts
  | MEnd _ _ => []
  | MComment x => [(6, d, x)]
  | MCdata x => [(11, d, removelast x)]          (* departure: without the last byte *)
  | MPi n v => [(7, d, n); (8, d, match v with Some (_, x) => x | None => [] end)]
  | MDoctype x => [(12, d, x)]
  end.
(** White space alone is content only where it is all the content of an element. *)
Definition text_pieces (d : Z) (all : bool) (g : gap) : list piece :=
  match g with GText x => if blank x && negb all then [] else [(5, d, x)] | GPseudo _ _ => [] end.
Fixpoint tree_pieces (d : Z) (t : tree) : list piece :=
  match t with
  | Leaf m => markup_pieces d m
  | Elem n atts _ g kids _ =>
      (0, d + 1, n) :: flat_map (attr_pieces (d + 1)) atts ++
      text_pieces (d + 1) (match kids with [] => true | _ => false end) g ++
      concat (map (fun p => match p with (k, g') => tree_pieces (d + 1) k ++ text_pieces (d + 1) false g' end) kids)
  end.
Definition decl_pieces (s : start) (e : encoding -> list byte) : list piece :=
  match s with
  | SDecl d =>
      [(9, -1, lit "version"); (10, -1, lit "1." ++ [d_minor d])] ++
      match d_rest d with
      | None => []
      | Some (_, en, sa) =>
          match en with Some en => [(9, -1, lit "encoding"); (10, -1, e en)] | None => [] end ++
          match sa with Some sa => [(9, -1, lit "standalone"); (10, -1, firstn (if s_yes sa then 3 else 2) (sta_value sa))] | None => [] end
      end
  | _ => []
  end.
Definition epi_pieces (e : epi) : list piece :=
  [(7, -1, p_target e); (8, -1, match p_value e with Some (_, x) => x | None => [] end)].
Definition pieces_of (e : encoding -> list byte) (x : xdoc) : list piece :=
  decl_pieces (x_start x) e ++
  flat_map (fun p => markup_pieces (-1) (fst p) ++ text_pieces (-1) false (snd p)) (x_prolog x) ++
  tree_pieces (-1) (x_root x) ++ flat_map epi_pieces (x_epis x).
(** How the bytes of a piece are read: names as they are, others with LF for CR *)
Definition seen_as (ty : Z) (y : list byte) : list byte := if (ty =? 0) || (ty =? 2) || (ty =? 3) then y else map lf y.
(** Pieces that are read: no prefix in the name of an element, and no empty text *)
Definition plain (p : piece) : Prop :=
  match p with (ty, _, y) => (ty = 0 -> ~ In x3a y) /\ (ty = 5 \/ ty = 6 \/ ty = 11 -> y <> []) end.
