(* Vocabulary for the theorems on samples and time steps in SU files. *)
From Verif Require Import FloatModel.

(** The magnitude from which numbers are infinite in single precision: halfway between the largest single and 2^128. *)
Definition edge : R := bpow radix2 128 - bpow radix2 103.
