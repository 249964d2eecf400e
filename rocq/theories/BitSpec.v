(** * BitSpec: what a circuit of x, cx and Toffoli gates needs of the
    arithmetic: how 0 and 1 are added, multiplied, conjugated and compared.
    No other number is mentioned, and no law of a ring is asked for, so these
    facts hold of rounded arithmetic as well. *)
From Verif Require Import Py Scalar.
Set Implicit Arguments.

Record bit_laws (S : scalar) : Prop := {
  bl_add00 : sadd (@s0 S) s0 = s0;
  bl_add01 : sadd (@s0 S) s1 = s1;
  bl_add10 : sadd (@s1 S) s0 = s1;
  bl_mul00 : smul (@s0 S) s0 = s0;
  bl_mul01 : smul (@s0 S) s1 = s0;
  bl_mul10 : smul (@s1 S) s0 = s0;
  bl_mul11 : smul (@s1 S) s1 = s1;
  bl_conj0 : sconj (@s0 S) = s0;
  bl_conj1 : sconj (@s1 S) = s1;
  bl_eqb00 : seqb (@s0 S) s0 = true;
  bl_eqb11 : seqb (@s1 S) s1 = true;
  bl_eqb01 : seqb (@s0 S) s1 = false;
  bl_eqb10 : seqb (@s1 S) s0 = false;
  bl_close00 : sclose (@s0 S) s0 = true;
  bl_close11 : sclose (@s1 S) s1 = true }.
