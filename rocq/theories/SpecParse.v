(** Vocabulary for the statements about Parse that do not need the document
    grammar. *)
From Verif Require Import GoBase.

Definition lf : byte := x0a.

(** [line] and [col] are the line number and column reported for position [pos]
    of a window starting at [start]: [line] is one plus the number of line feeds
    between them; [col] counts from the last of these line feeds (which is column
    1), or from the start of the buffer when there is none. *)
Fixpoint count_lf (l : list byte) : Z :=
  match l with
  | [] => 0
  | x0a :: t => 1 + count_lf t
  | _ :: t => count_lf t
  end.
Definition line_col (doc : list byte) (start pos line col : Z) : Prop :=
  exists before seg after,
    doc = before ++ seg ++ after /\ zlen before = start /\ zlen seg = pos - start /\
    line = 1 + count_lf seg /\
    ((~ In lf seg /\ col = pos + 1) \/
     (exists a b, seg = a ++ lf :: b /\ ~ In lf b /\ col = zlen b + 2)).

(** A numeric character reference without ';' among the nine bytes after "&#".  The
    references of XML 1.0 end within eight, leading zeros apart. *)
Definition long_reference (doc : list byte) : Prop :=
  exists a b, doc = a ++ x26 :: x23 :: b /\ ~ In x3b (firstn 9 b).
