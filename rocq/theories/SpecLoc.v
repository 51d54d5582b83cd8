(** The location cache of depth 5, from the start tags of the document in document
    order, each given by its token index and its depth. *)
From Verif Require Import GoBase SpecDoc.

(** Token indices and depths of the start tags among [ts], the first of which has
    index [i]. *)
Fixpoint start_tags (i : Z) (ts : list tok) : list (Z * Z) :=
  match ts with
  | [] => []
  | t :: r => if t_type t =? 0 then (i, t_depth t) :: start_tags (i + 1) r else start_tags (i + 1) r
  end.
(** Depths of a tree in document order: the root has depth 0, every other element
    is at most one deeper than the one before it. *)
Fixpoint chain (c : Z) (l : list (Z * Z)) : Prop :=
  match l with [] => True | (_, d) :: t => 1 <= d <= c + 1 /\ chain d t end.
Definition tree_like (l : list (Z * Z)) : Prop :=
  match l with (_, d) :: t => d = 0 /\ chain 0 t | [] => True end.

(** Upper half: token index; lower half: position of the first child in the next
    table, or 0xFFFF for an element without child elements. *)
Definition leaf_entry (i : Z) : Z := i * 2^32 + 65535.
Definition node_entry (i pos : Z) : Z := i * 2^32 + pos.
(** The element has a child iff the next start tag is one deeper, and this start tag
    is its first child. [seen] counts the elements of depth [k + 1] before. *)
Fixpoint level (k seen : Z) (l : list (Z * Z)) : list Z :=
  match l with
  | [] => []
  | (i, d) :: t =>
      if d =? k then
        (match t with
         | (_, d') :: _ => if d' =? k + 1 then node_entry i seen else leaf_entry i
         | [] => leaf_entry i
         end) :: level k seen t
      else level k (if d =? k + 1 then seen + 1 else seen) t
  end.
(** The last table has the bare indices. *)
Definition last_level (k : Z) (l : list (Z * Z)) : list Z := map fst (filter (fun e => snd e =? k) l).
