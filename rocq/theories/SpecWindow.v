(** Documents in a window of a larger buffer. *)
From Verif Require Import GoBase SpecDoc.

(** The bytes [w] of the window, with [r] behind them in the buffer, are read as
    the document [d].  Departure: the parser looks one byte past the end of the
    window when a '?' stands there.  So the '>' of a last PI may lie behind the
    window; and a last PI without a value may end the window when the byte behind
    it is no '>', as if white space followed. *)
Definition shows (d : document) (w r : list byte) : Prop :=
  w = render d \/
  (w ++ lit ">" = render d /\ d_epis d <> [] /\ exists t, r = x3e :: t) \/
  (w ++ lit " " = render d /\ exists b t, r = b :: t /\ b <> x3e).
