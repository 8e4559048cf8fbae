(** The text of the window of a timed session: [constraint] of SendTimed and RecvTimed. Model only. *)
From Coq Require Import List ZArith Bool.
From Verif Require Import Types Timed.
Import ListNotations.
Open Scope Z_scope.

(** What [format!] is given: a number, the clock, an operator (src/binary_atmp/struct_trait/send.rs:70-91).
    Simplified: a number stands for its digits. *)
Inductive piece := PNum (z : Z) | PClock (c : nat) | PLe | PLt.

(** src/binary_atmp/struct_trait/send.rs:66-94; recv.rs:65-93 is the same text. [None] is the panic. *)
Definition constraint (w : window) : option (list piece) :=
  if w_start w <? 0 then
    if 0 <=? w_end w then
      if w_incl_end w then Some [PClock (w_clock w); PLe; PNum (w_end w)]
      else Some [PClock (w_clock w); PLt; PNum (w_end w)]
    else None
  else
    if w_end w <? 0 then
      if w_incl_start w then Some [PNum (w_start w); PLe; PClock (w_clock w)]
      else Some [PNum (w_start w); PLt; PClock (w_clock w)]
    else
      match w_incl_start w, w_incl_end w with
      | true, true => Some [PNum (w_start w); PLe; PClock (w_clock w); PLe; PNum (w_end w)]
      | true, false => Some [PNum (w_start w); PLe; PClock (w_clock w); PLt; PNum (w_end w)]
      | false, true => Some [PNum (w_start w); PLt; PClock (w_clock w); PLe; PNum (w_end w)]
      | false, false => Some [PNum (w_start w); PLt; PClock (w_clock w); PLt; PNum (w_end w)]
      end.
