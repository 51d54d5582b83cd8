(** What a user of the buffers sees, over plain lists of values. *)
From Coq Require Import ZArith List.
Import ListNotations.
Open Scope Z_scope.

(** A history of updates. *)
Inductive upd_op (V : Type) : Type :=
| OpAppend (v : V)
| OpModify (i : Z) (v : V).
Arguments OpAppend {V} v.
Arguments OpModify {V} i v.

(** [replaced l i v l']: [l'] is [l] with position [i] replaced by [v]. *)
Definition replaced {V} (l : list V) (i : Z) (v : V) (l' : list V) : Prop :=
  exists a x c, l = a ++ x :: c /\ Z.of_nat (length a) = i /\ l' = a ++ v :: c.

(** Value at an integer position. *)
Definition value_at {V} (l : list V) (i : Z) (v : V) : Prop :=
  exists a c, l = a ++ v :: c /\ Z.of_nat (length a) = i.

(** Number of pages of [p] values needed for [n] values. *)
Definition pages_for (n p : Z) : Z := (n + p - 1) / p.

(** Content of a buffer after a history, when a modification takes effect
    exactly at the positions below both the current length and [limit]. *)
Inductive replay {V} (limit : Z) : list (upd_op V) -> list V -> Prop :=
| replay_nil : replay limit [] []
| replay_append h l v : replay limit h l -> replay limit (h ++ [OpAppend v]) (l ++ [v])
| replay_modify h l i v l' : replay limit h l -> i < limit -> replaced l i v l' ->
    replay limit (h ++ [OpModify i v]) l'
| replay_ignored h l i v : replay limit h l ->
    ~ (0 <= i < Z.min (Z.of_nat (length l)) limit) -> replay limit (h ++ [OpModify i v]) l.
