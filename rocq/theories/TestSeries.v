(* The expected values of the repository's own unit tests of time series (/repo/test/test_activetimeseries.py), computed with
   the model.  These are tests of the model, not theorems about it: they compare it with numbers that somebody else obtained
   by running the program.  Tests that read example files, on sampled sinusoids, of the types of arguments and of the printed
   form are left out. *)
From Verif Require Import TestTools.
Local Open Scope Z_scope.

(** 37-70. *)
Example test_check :
  raises ValueError (new_series (zs [0]) 1 (-1) 0) && raises ValueError (new_series (zs [0]) 1 0 0)
  && raises ValueError (new_series (zs [0]) 1 1 (dec 1 10)) && is_ok (new_series (zs [0]) 1 1 0) = true.
Proof. vm_compute. reflexivity. Qed.
(** 72-77. *)
Example test_init : returns (fun s => same (amp s) (zs [0; 1; 0; -1]) && Qceqb (dt s) 1) (new_series (zs [0; 1; 0; -1]) 1 1 0) = true.
Proof. vm_compute. reflexivity. Qed.
(** 79-94. *)
Example test_time :
  returns (fun s => same (time s) [0; dec 1 2; 1; dec 3 2]%Qc) (new_series (zs [0; 1; 2; 3]) (dec 1 2) 1 0)
  && returns (fun s => same (time s) [dec (-1) 2; 0; dec 1 2; 1; dec 3 2]%Qc) (new_series (zs [-1; 0; 1; 0; -1]) (dec 1 2) 1 (dec (-1) 2)) = true.
Proof. vm_compute. reflexivity. Qed.
(** 119-143. *)
Definition plain (a : list Z) : series := mkSeries (zs a) 1 1 0 1.
Example test_stack_append :
  after (stack_append (plain [0; 1; 0; -1]) (ObjSeries (plain [0; -1; 0; 1]))) (fun s => same (amp s) (zs [0; 0; 0; 0]))
  && after (stack_append (mkSeries (zs [10]) 1 3 0 1) (ObjSeries (mkSeries (zs [5]) 1 5 0 1))) (fun s => same (amp s) [dec 55 8])
  && raises ValueError (snd (stack_append (plain [1; 2; 3]) (ObjSeries (mkSeries (zs [0; 0; 0]) (QcZ 2) 1 0 1)))) = true.
Proof. vm_compute. reflexivity. Qed.
(** 145-199. *)
Definition state (idf df : Qc) (n : nat) (m : Z) (s : series) : bool :=
  returns (Qceqb idf) (internal_df s) && returns (Qceqb df) (user_df s) && Nat.eqb (nsamples s) n && Z.eqb (multiple s) m.
Example test_zero_pad :
  let t0 := mkSeries (map (fun i => QcN i * dec 1 100)%Qc (range 200)) (dec 1 100) 1 0 1 in
  state (dec 1 2) (dec 1 2) 200 1 t0
  && after (zero_pad t0 (dec 1 2)) (fun t1 => state (dec 1 2) (dec 1 2) 200 1 t1
  && after (zero_pad t1 1) (fun t2 => state (dec 1 2) 1 200 2 t2
  && after (zero_pad t2 (dec 1 2)) (fun t3 => state (dec 1 2) (dec 1 2) 200 1 t3
  && after (zero_pad t3 (dec 1 20)) (fun t4 => state (dec 1 20) (dec 1 20) 2000 1 t4
  && after (zero_pad t4 1) (fun t5 => state (dec 1 20) 1 2000 20 t5
  && after (zero_pad t5 (dec 3 2)) (fun t6 => state (dec 100 2010) (dec 100 67) 2010 30 t6
  && raises ValueError (snd (zero_pad t6 0)))))))) = true.
Proof. vm_compute. reflexivity. Qed.
(** 201-250. *)
Definition ramp (de : Qc) : series := mkSeries (map (fun i => QcN i * dec 1 1000)%Qc (range 2000)) (dec 1 1000) 1 de 1.
Definition near (x y : Qc) : bool := Qcleb (Qcabs (x - y)) (dec 1 1000).
Definition trimmed (n : nat) (de lo hi : Qc) (s : series) : bool :=
  Nat.eqb (nsamples s) n && near (delay s) de && near (nth 0 (time s) (QcZ 9)) lo && near (last (time s) (QcZ 9)) hi.
Example test_trim :
  after (trim (ramp 0) 0 1) (fun s => Nat.eqb (nsamples s) 1001)
  && after (trim (ramp (dec (-1) 2)) (dec (-1) 4) (dec 1 4)) (fun s => trimmed 501 (dec (-1) 4) (dec (-1) 4) (dec 1 4) s
     && after (trim s 0 (dec 1 5)) (trimmed 201 0 0 (dec 1 5))
     && after (trim s 0 (dec 1 4)) (fun t => trimmed 251 (dec 1 1000) 0 (dec 1 4) t && raises IndexError (snd (trim t (-(1)) (dec 1 10))))) = true.
Proof. vm_compute. reflexivity. Qed.
(** 252-275. *)
Example test_eq :
  let a := plain [0; 1; 0; -1; 0] in let b := ObjSeries a in let c := ObjSeries (plain [0; 0; 0; 1; 0]) in
  let d := ObjSeries (mkSeries (amp a) (dec 1 2) 1 0 1) in let e := ObjSeries (mkSeries (amp a) 1 1 (-(1)) 1) in
  let f := ObjSeries (mkSeries (amp a) 1 2 0 1) in
  map (series_eq a) [b; c; d; e; f; ObjOther] = [true; false; false; false; false; false]
  /\ map (is_similar [] a) [b; c; d; e; f; ObjOther] = [true; true; false; false; false; false].
Proof. vm_compute. split; reflexivity. Qed.
(** 277-322. *)
Example test_crosscorr :
  returns (same (zs [0; 0; 0; 1; 0])) (crosscorr [A_nsamples] (plain [0; 0; 1; 0]) (plain [1; 0]))
  && returns (same (zs [0; 0; 0; 1; 0; 0])) (crosscorr [A_nsamples] (plain [0; 0; 1; 0]) (plain [0; 1; 0]))
  && returns (same (zs [0; 0; 0; 0; 1; 0; 0])) (crosscorr [A_nsamples] (plain [0; 0; -1; 0]) (plain [0; -1; 0; 0]))
  && raises ValueError (crosscorr [A_nsamples] (plain [1; 2]) (mkSeries (zs [1; 2]) (QcZ 2) 1 0 1)) = true.
Proof. vm_compute. reflexivity. Qed.
(** 324-359. *)
Definition shifts (k : Z) (l : list Z) (r : result (Z * list Qc)) : bool := returns (fun p => Z.eqb (fst p) k && same (snd p) (zs l)) r.
Example test_crosscorr_shift :
  shifts 1 [0; 0; 1; 0] (crosscorr_shift [A_nsamples] (plain [0; 0; 1; 0]) (plain [0; 1; 0; 0]))
  && shifts 1 [0; 0; 2; 3; 4; 5; 0; 0; 0; 0] (crosscorr_shift [A_nsamples] (plain [0; 0; 2; 3; 4; 5; 0; 2; 3; 0]) (plain [0; 2; 3; 4; 5; 0; 0; 0; 0; 0]))
  && shifts (-2) [0; -1; 0; 1; 0; 0; 0; 0] (crosscorr_shift [A_nsamples] (plain [0; -1; 0; 1; 0; -1; 0; 0]) (plain [0; 0; 0; -1; 0; 1; 0; 0])) = true.
Proof. vm_compute. reflexivity. Qed.
(** 361-383. *)
Example test_from_cross_stack :
  returns (fun s => same (amp s) (zs [0; 0; 1; 0])) (from_cross_stack (plain [0; 0; 1; 0]) (plain [0; 1; 0; 0]))
  && returns (fun s => same (amp s) (zs [0; 0; 0; 1; 0; 1; 0; 0; 0; 0])) (from_cross_stack (plain [0; 0; 0; 1; 0; 1; 0; 0; 0; 0]) (plain [0; 0; 0; 0; 0; 0; 1; 0; 1; 0])) = true.
Proof. vm_compute. reflexivity. Qed.
