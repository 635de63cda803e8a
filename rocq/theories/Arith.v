(** Arithmetic as a parameter: functions of the code that only use +, -, *, /
    and comparisons on one C type are written once over a [arith] and read either
    bit-exactly (binary32, binary64) or in exact real arithmetic. *)
From Verif Require Import Base F32.
From Coq Require Import Reals.
From Flocq Require Import Core.Raux.

Record arith : Type := mkNum {
  car :> Type;
  nadd : car -> car -> car;
  nsub : car -> car -> car;
  nmul : car -> car -> car;
  ndiv : car -> car -> car;
  nlt : car -> car -> bool;
  nle : car -> car -> bool;
  neqb : car -> car -> bool;
  nofZ : Z -> car
}.
Arguments nadd {a}. Arguments nsub {a}. Arguments nmul {a}. Arguments ndiv {a}.
Arguments nlt {a}. Arguments nle {a}. Arguments neqb {a}. Arguments nofZ {a}.

(** C float, bit exact *)
Definition num32 : arith := mkNum f32 fadd fsub fmul fdiv flt fle feq f_of_Z.
(** C double, bit exact *)
Definition num64 : arith := mkNum f64 dadd dsub dmul ddiv dlt dle deq d_of_Z.
(** exact real arithmetic *)
Definition numR : arith := mkNum R Rplus Rminus Rmult Rdiv Rlt_bool Rle_bool Req_bool IZR.
