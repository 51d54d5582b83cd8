(** Elements with namespace declarations (Namespaces in XML 1.0, sections 3-6),
    independent of the parser: how they are written, which prefixes are in scope,
    and which attributes have the same expanded name. *)
From Verif Require Import Lib.

(** An element: prefix (empty: none), local name, the prefixes it declares with
    their URLs, its other attributes (prefix, local name, value), its children. *)
Inductive element : Type :=
| Element (prefix local : list byte) (decls : list (list byte * list byte)) (attrs : list (list byte * list byte * list byte)) (kids : list element).

Definition qname (prefix local : list byte) : list byte := match prefix with [] => local | _ => prefix ++ bytes_of ":" ++ local end.
Definition write_decl (d : list byte * list byte) : list byte := bytes_of " xmlns:" ++ fst d ++ bytes_of "='" ++ snd d ++ bytes_of "'".
Definition write_attr (a : list byte * list byte * list byte) : list byte :=
  let '(p, l, v) := a in bytes_of " " ++ qname p l ++ bytes_of "='" ++ v ++ bytes_of "'".
Fixpoint write (e : element) : list byte :=
  match e with
  | Element p l ds ats ks => bytes_of "<" ++ qname p l ++ concat (map write_decl ds) ++ concat (map write_attr ats) ++ bytes_of ">" ++
      (fix all (ks : list element) : list byte := match ks with [] => [] | k :: t => write k ++ all t end) ks ++ bytes_of "</" ++ qname p l ++ bytes_of ">"
  end.

(** The URL bound to a prefix, innermost declaration first. *)
Fixpoint url_of (env : list (list byte * list byte)) (p : list byte) : option (list byte) :=
  match env with
  | [] => None
  | (q, u) :: t => if list_eq_dec Byte.byte_eq_dec p q then Some u else url_of t p
  end.
Definition bound (env : list (list byte * list byte)) (p : list byte) : bool :=
  if list_eq_dec Byte.byte_eq_dec p [] then true
  else if list_eq_dec Byte.byte_eq_dec p (bytes_of "xml") then true
  else match url_of env p with Some _ => true | None => false end.

(** Every element prefix is xml or declared on the element or an ancestor. *)
Fixpoint elements_declared (env : list (list byte * list byte)) (e : element) : bool :=
  match e with
  | Element p _ ds _ ks => let env' := ds ++ env in bound env' p &&
      (fix all (ks : list element) : bool := match ks with [] => true | k :: t => elements_declared env' k && all t end) ks
  end.
(** The same for attribute prefixes, and no two attributes of an element have
    the same namespace and local name. *)
Definition expanded (env : list (list byte * list byte)) (a : list byte * list byte * list byte) : option (list byte) * list byte :=
  let '(p, l, _) := a in (if list_eq_dec Byte.byte_eq_dec p [] then None else url_of env p, l).
Fixpoint distinct {A} (dec : forall x y : A, {x = y} + {x <> y}) (l : list A) : bool :=
  match l with [] => true | x :: t => (if in_dec dec x t then false else true) && distinct dec t end.
Lemma expanded_dec : forall x y : option (list byte) * list byte, {x = y} + {x <> y}.
Proof. decide equality; [apply list_eq_dec, Byte.byte_eq_dec|]. decide equality. apply list_eq_dec, Byte.byte_eq_dec. Defined.
Fixpoint namespace_wf (env : list (list byte * list byte)) (e : element) : bool :=
  match e with
  | Element p _ ds ats ks => let env' := ds ++ env in bound env' p && forallb (fun a => bound env' (fst (fst a))) ats &&
      distinct (list_eq_dec Byte.byte_eq_dec) (map fst ds) && distinct expanded_dec (map (expanded env') ats) &&
      (fix all (ks : list element) : bool := match ks with [] => true | k :: t => namespace_wf env' k && all t end) ks
  end.
