(** Settling of pressures: vocabulary. *)
From Coq Require Import List Reals.
From Verif Require Import Prelude Num UnitsModel BlackOilModel.

(** Two fluids that differ in compressibility (and in the units they are kept in) only. *)
Definition but_comp (f f' : fobj R) : Prop := f_mu f' = f_mu f /\ f_B f' = f_B f /\ f_g f' = f_g f.
