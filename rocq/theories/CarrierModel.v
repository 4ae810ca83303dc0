(** The carrier delay of an interface: manual_carrierdelay and has_manual_carrierdelay
    (models_cisco.py:1538-1559, models_nxos.py:810-830, models_iosxr.py:935-959: the same text three
    times).  A delay is counted in milliseconds, exactly; the rounding of floats, which
    leaves no positive number of milliseconds at 0, is not modelled. *)
From Coq Require Import Ascii String Arith NArith ZArith Bool List.
From Verif Require Import PyStr PyBase SearchModel PyRe IosModel.
Import ListNotations.
Local Open Scope Z_scope.

(** 1547-1549: [float] of a text of digits is a whole number *)
Definition cd_seconds := iter_int "^\s*carrier-delay\s+(\d+)$" 1 0.
(** 1550-1552 *)
Definition cd_msec := iter_int "^\s*carrier-delay\s+msec\s+(\d+)$" 1 0.
(** 1547-1559: both searches come first *)
Definition manual_carrierdelay (own : str) (below : list str) : result Z :=
  do s <- cd_seconds own below;
  do m <- cd_msec own below;
  Ok (if 0 <? s then s * 1000 else if 0 <? m then m else 0).
(** 1538-1540 *)
Definition has_manual_carrierdelay (own : str) (below : list str) : result bool := is_set (manual_carrierdelay own below).
