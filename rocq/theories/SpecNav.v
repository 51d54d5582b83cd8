(** What navigation and string extraction should do, stated on the plain token
    sequence and the plain document. *)
From Coq Require Import ZArith List Init.Byte.
From Verif Require Import SpecToken.
Import ListNotations.
Open Scope Z_scope.

(** ** Text *)
(** XML 1.0, 2.11: CR LF and lone CR become LF. *)
Definition CR : byte := x0d.
Definition LF : byte := x0a.
Fixpoint normalize (l : list byte) : list byte :=
  match l with
  | [] => []
  | x0d :: t => match t with
                | x0a :: t' => LF :: normalize t'
                | _ => LF :: normalize t
                end
  | b :: t => b :: normalize t
  end.
Fixpoint has_crlf (l : list byte) : bool :=
  match l with
  | x0d :: t => match t with x0a :: _ => true | _ => has_crlf t end
  | _ :: t => has_crlf t
  | [] => false
  end.
(** The bytes [off, off+len) of the document. *)
Definition slice (doc : list byte) (off len : Z) : list byte :=
  firstn (Z.to_nat len) (skipn (Z.to_nat off) doc).
(** Byte-for-byte copy except that CR is shown as LF, or as NUL when it is the
    very last byte of the document. *)
Fixpoint shown (n : nat) (l : list byte) : list byte :=
  match n, l with
  | S n', x0d :: [] => [x00]
  | S n', x0d :: t => LF :: shown n' t
  | S n', b :: t => b :: shown n' t
  | _, _ => []
  end.
(** CR as LF, byte by byte *)
Definition lf (b : byte) : byte := match b with x0d => LF | _ => b end.

(** ** Tokens *)
(** Token [i] of [ws] opens an element at depth [d] (the root has depth 0). *)
Definition opens (ws : list Z) (i d : Z) : Prop :=
  0 <= i /\ exists w, nth_error ws (Z.to_nat i) = Some w /\ field_type w = 0 /\
  d = (if field_depth w =? 255 then -1 else field_depth w).

(** [i] is the first child of the element whose start tag is token [cur], at depth [d]. *)
Definition first_child (ws : list Z) (cur d i : Z) : Prop :=
  cur < i /\ opens ws i (d + 1) /\ forall j e, cur < j < i -> opens ws j e -> d + 1 < e.
(** [i] is a child: no element at depth [d] or less opens in between. *)
Definition is_child (ws : list Z) (cur d i : Z) : Prop :=
  cur < i /\ opens ws i (d + 1) /\ forall j e, cur < j < i -> opens ws j e -> d < e.
Definition last_child (ws : list Z) (cur d i : Z) : Prop :=
  is_child ws cur d i /\ forall j, is_child ws cur d j -> j <= i.
Definition next_sibling (ws : list Z) (cur d i : Z) : Prop :=
  cur < i /\ opens ws i d /\ forall j e, cur < j < i -> opens ws j e -> d < e.
(** [parent] is the parent's token. *)
Definition prev_sibling (ws : list Z) (parent cur d i : Z) : Prop :=
  parent < i < cur /\ opens ws i d /\ forall j, i < j < cur -> ~ opens ws j d.

(** ** Location cache entries: the element's token in the upper half, the
    position of its first child's entry (or -1) in the lower half. *)
Definition entry_token (w : Z) : Z := w / 2^32 mod 2^28.
Definition entry_child (w : Z) : Z := let l := w mod 2^32 in if l <? 2^31 then l else l - 2^32.
(** The entries of the children of entry [i] of [ws] run from [lo] to [up] in
    the next level, which has [size2] entries. *)
Definition child_range (ws : list Z) (size2 i lo up : Z) : Prop :=
  0 <= i /\ (exists w, nth_error ws (Z.to_nat i) = Some w /\ entry_child w = lo) /\ lo <> -1 /\
  ((exists j w, i < j /\ nth_error ws (Z.to_nat j) = Some w /\ entry_child w <> -1 /\ up = entry_child w - 1 /\
      forall k v, i < k < j -> nth_error ws (Z.to_nat k) = Some v -> entry_child v = -1) \/
   (up = size2 - 1 /\ forall k v, i < k -> nth_error ws (Z.to_nat k) = Some v -> entry_child v = -1)).
(** Child positions grow strictly and stay inside the next level. *)
Definition links (ws : list Z) (size2 : Z) : Prop :=
  (forall i w, nth_error ws i = Some w -> entry_child w = -1 \/ 0 <= entry_child w < size2) /\
  (forall i j v w, (i < j)%nat -> nth_error ws i = Some v -> nth_error ws j = Some w ->
     entry_child v <> -1 -> entry_child w <> -1 -> entry_child v < entry_child w).
