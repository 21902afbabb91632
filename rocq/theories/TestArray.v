(* The expected values of the repository's own unit tests of sensors, sources, arrays, interaction and signal-to-noise ratio
   (/repo/test/test_sensor1c.py, test_source.py, test_array1d.py, test_interact.py, test_snr.py), computed with the model.  See
   TestSeries.v; tests that read example files are left out. *)
From Coq Require Import String.
From Verif Require Import TestTools ArrayModel ImageModel TransformModel InteractModel WaterfallModel.
Import ListNotations.
Local Open Scope Z_scope.

(** ** test_sensor1c.py *)
Definition at_xyz (a : list Z) (d x y z : Qc) (ns : Z) (de : Qc) : sensor := mkSensor (mkSeries (zs a) d ns de 1) x y z.
(** 48-57. *)
Example sensor_init : returns (fun s => same (amp (ser s)) (zs [0; 1; 2; 1; 0; 1]) && Qceqb (dt (ser s)) 1) (new_sensor (zs [0; 1; 2; 1; 0; 1]) 1 0 0 0 1 0) = true.
Proof. vm_compute. reflexivity. Qed.
(** 109-137. *)
Example sensor_is_similar_test :
  let a := at_xyz [1; 2; 3] 1 0 0 0 1 0 in let c := ObjSensor (at_xyz [1; 2] 1 0 0 0 1 0) in
  let d := ObjSensor (at_xyz [1; 2; 3] (QcZ 2) 0 0 0 1 0) in let e := ObjSensor (at_xyz [1; 2; 3] 1 1 0 0 1 0) in
  let f := ObjSensor (at_xyz [1; 2; 3] 1 0 1 0 1 0) in let g := ObjSensor (at_xyz [1; 2; 3] 1 0 0 1 1 0) in
  let h := ObjSensor (at_xyz [1; 2; 3] 1 0 0 0 2 0) in let i := ObjSensor (at_xyz [1; 2; 3] 1 0 0 0 1 (dec (-1) 2)) in
  map (sensor_is_similar [] a) [ObjOther; c; d; e; f; g] = [false; false; false; false; false; false]
  /\ [sensor_is_similar [A_nsamples] a c; sensor_is_similar [A_dt] a d; sensor_is_similar [A_x] a e; sensor_is_similar [A_y] a f;
      sensor_is_similar [A_z] a g; sensor_is_similar [A_nstacks] a h; sensor_is_similar [A_delay] a i; sensor_is_similar [] a (ObjSensor a)]
     = [true; true; true; true; true; true; true; true].
Proof. vm_compute. split; reflexivity. Qed.

(** ** test_source.py, 49-64. *)
Example source_eq_test :
  let e := mkSource (QcZ 1) (QcZ 2) (QcZ 2) in
  map (source_eq e) [mkSource (QcZ 0) (QcZ 2) (QcZ 2); mkSource (QcZ 1) (QcZ 3) (QcZ 2); mkSource (QcZ 1) (QcZ 2) (QcZ 4); e] = [false; false; false; true].
Proof. vm_compute. reflexivity. Qed.

(** ** test_array1d.py *)
Definition bump (b t : Qc) (x : Z) : sensor := mkSensor (mkSeries (repeat b 9 ++ [t] ++ repeat b 9) 1 1 0 1) (QcZ x) 0 0.
Definition sensor_0 : sensor := bump (dec (-1) 10) (dec (-11) 100) 0.
Definition sensor_1 : sensor := bump (dec 2 10) (dec 25 100) 1.
Definition sensor_5 : sensor := bump 1 (dec 105 100) 5.
Definition sensor_6 : sensor := bump (QcZ 2) (dec 202 100) 6.
Definition source_at (x : Z) : source := mkSource (QcZ x) 0 0.
Definition with_array (l : list sensor) (s : source) (p : array -> bool) : bool := returns p (new_array l s).
Definition dummy (a : list Qc) (d : Qc) (de : Qc) (n : nat) (sp : Qc) (x : Z) (p : array -> bool) : bool :=
  with_array (map (fun i => mkSensor (mkSeries a d 1 de 1) (QcN i * sp)%Qc 0 0) (range n)) (source_at x) p.
(** 64-82. *)
Example array_init :
  with_array [sensor_0; sensor_1] (source_at (-5)) (fun a => source_eq (src a) (source_at (-5))
    && forallb (fun x => x) (map2 (fun s t => sensor_eq s (ObjSensor t)) (sensors a) [sensor_0; sensor_1]))
  && raises ValueError (new_array [sensor_5; sensor_5] (source_at (-5)))
  && raises ValueError (new_array [sensor_5; at_xyz [1; 2; 3; 4] 1 (QcZ 7) 0 0 1 0] (source_at (-5))) = true.
Proof. vm_compute. reflexivity. Qed.
(** 84-113. *)
Definition base : list (list Qc) := map (fun s => amp (ser s)) [sensor_0; sensor_1; sensor_5; sensor_6].
Definition over (c : Qc) (l : list Qc) : list flt := map (fun x => Fin (x / c)%Qc) l.
Definition close (x y : Qc) (f : flt) : bool := match f with Fin a => Qcltb (Qcabs (a - (x - y))) (dec 5 1000) | _ => false end.
Example array_timeseriesmatrix :
  with_array [sensor_0; sensor_1; sensor_5; sensor_6] (source_at (-5)) (fun a =>
    returns (rows_same (map (map Fin) base)) (timeseriesmatrix a false NormNone)
    && returns (rows_same (map2 over [dec 11 100; dec 25 100; dec 105 100; dec 202 100] base)) (timeseriesmatrix a false NormEach)
    && returns (rows_same (map (over (dec 202 100)) base)) (timeseriesmatrix a false NormAll)) = true.
Proof. vm_compute. reflexivity. Qed.
(** 110-113: the test asks for two decimal places; the mean of 19 samples that differ by at most 0.05 is that near. *)
Example array_timeseriesmatrix_detrend :
  with_array [sensor_0; sensor_1; sensor_5; sensor_6] (source_at (-5)) (fun a =>
    returns (fun m => forallb (fun x => x) (map2 (fun b r => forallb (fun x => x) (map2 (fun x f => close x (nth 0 b 0%Qc) f) b r)) base m)) (timeseriesmatrix a true NormNone)) = true.
Proof. vm_compute. reflexivity. Qed.
(** 115-140. *)
Example array_position :
  with_array [sensor_1; sensor_5; sensor_6] (source_at (-5)) (fun a =>
    same (position a) (zs [1; 5; 6]) && returns (same (zs [0; 4; 5])) (position_normalized a) && same (offsets a) (zs [6; 10; 11])) = true.
Proof. vm_compute. reflexivity. Qed.
(** 148-163. *)
Example array_nchannels : map (fun n => dummy (zs [0; 0; 0]) 1 0 n 1 (-5) (fun a => Nat.eqb (nchannels a) n)) [1; 3; 5]%nat = [true; true; true].
Proof. vm_compute. reflexivity. Qed.
Example array_center :
  map (fun n => dummy (zs [0; 0; 0]) 1 0 n (QcZ 2) (-5) (fun a => Qceqb (array_center_distance a) (QcZ 5 + (QcN n - 1) * QcZ 2 / QcZ 2))) [24; 48; 96]%nat = [true; true; true].
Proof. vm_compute. reflexivity. Qed.
(** 165-184. *)
Example array_spacing :
  forallb (fun s => dummy (zs [0; 0; 0]) 1 0 3 s (-5) (fun a => returns (Qceqb s) (spacing a))) [QcZ 1; QcZ 2; dec 55 10]
  && with_array [sensor_0; sensor_5; sensor_6] (source_at (-10)) (fun a => raises ValueError (spacing a)) = true.
Proof. vm_compute. reflexivity. Qed.
(** 186-197, 262-273. *)
Example array_source_inside :
  with_array [sensor_0; sensor_6] (source_at 3) source_inside && with_array [sensor_0; sensor_6] (source_at (-10)) (fun a => negb (source_inside a))
  && with_array [sensor_0; sensor_1] (source_at 3) flip_required && with_array [sensor_0; sensor_1] (source_at (-5)) (fun a => negb (flip_required a)) = true.
Proof. vm_compute. reflexivity. Qed.
(** 199-231 (the amplitudes do not matter). *)
Definition first_sensor (a : array) (de : Qc) (n : nat) : bool :=
  match sensors a with s :: _ => Qceqb (delay (ser s)) de && Nat.eqb (nsamples (ser s)) n | [] => false end.
Example array_trim_test :
  dummy (repeat 1%Qc 200) (dec 1 100) (-(1)) 2 (QcZ 2) (-5) (fun a => first_sensor a (-(1)) 200 && after (array_trim a 0 (dec 1 2)) (fun b => first_sensor b 0 51))
  && dummy (repeat 1%Qc 300) (dec 1 100) (-(1)) 2 (QcZ 2) (-5) (fun a => first_sensor a (-(1)) 300 && after (array_trim a 0 1) (fun b => first_sensor b 0 101))
  && dummy (repeat 1%Qc 100) (dec 1 100) (dec (-1) 2) 2 (QcZ 2) (-5) (fun a => first_sensor a (dec (-1) 2) 100
       && after (array_trim a (dec (-1) 10) (dec 1 10)) (fun b => first_sensor b (dec (-1) 10) 21)) = true.
Proof. vm_compute. reflexivity. Qed.
(** 233-260. *)
Definition padded (df : Qc) (n : nat) (m : Z) : bool :=
  dummy (repeat 0%Qc 10) 1 0 2 1 (-1) (fun a => after (array_zero_pad a df) (fun b => forallb (fun s => Nat.eqb (nsamples (ser s)) n && Z.eqb (multiple (ser s)) m) (sensors b))).
Example array_zero_pad_test : padded (dec 1 10) 10 1 && padded (dec 1 100) 100 1 && padded 1 10 10 = true.
Proof. vm_compute. reflexivity. Qed.
(** 303-304. *)
Example array_waterfall : with_array [sensor_0; sensor_1] (source_at (-5)) (fun a => raises ValueError (snd (waterfall a false "z" false NormEach None true))) = true.
Proof. vm_compute. reflexivity. Qed.
(** 314-335. *)
Definition spike (k : nat) (v : Qc) (x : Z) : sensor := mkSensor (mkSeries (repeat 0%Qc k ++ [v] ++ repeat 0%Qc (202 - k)) 1 1 0 1) (QcZ x) 0 0.
Example array_auto_pick :
  with_array [spike 100 (dec 1 10) 1; spike 101 (dec 2 10) 2] (source_at 0) (fun a =>
    returns (fun r => same (fst r) (zs [1; 2]) && same (snd r) (zs [100; 101])) (auto_pick a "threshold" (dec 5 100))
    && raises NotImplementedError (auto_pick a "bad" (dec 5 100))) = true.
Proof. vm_compute. reflexivity. Qed.
(** 337-359: the user clicks (0, 2), (1, 1), (2, 0) on an axis with the time on y, or the other way round. *)
Definition answers (l : list (Z * Z)) : user :=
  mkUser (map (fun p => [(QcZ (fst p), QcZ (snd p))]) l) (Some true :: List.concat (map (fun _ => [Some true; Some false]) (tl l)) ++ [Some true; Some true]).
Definition picked (time_ax : string) (l : list (Z * Z)) (p : list Qc * list Qc -> bool) : bool :=
  with_array [sensor_0; sensor_5; sensor_6] (source_at (-5)) (fun a =>
    match manual_pick a false time_ax false NormEach None true (answers l) with Returned (Ok r) _ => p r | _ => false end).
Example array_manual_pick :
  picked "y" [(0, 2); (1, 1); (2, 0)] (fun r => same (fst r) (zs [0; 1; 2]) && same (snd r) (zs [2; 1; 0]))
  && picked "x" [(0, 2); (1, 1); (2, 0)] (fun r => same (snd r) (zs [0; 1; 2]) && same (fst r) (zs [2; 1; 0])) = true.
Proof. vm_compute. reflexivity. Qed.
(** 361-372; test_interact.py:32-41 (two points at once, of which the last counts; every wait is ended by a key). *)
Example interact_session :
  match ginput_session false 1 false (mkUser [[(QcZ 0, QcZ 1)]] [Some true]) with Returned (xs, ys) _ => same xs (zs [0]) && same ys (zs [1]) | Waiting => false end
  && match ginput_session true 2 true (mkUser [[(dec 1 2, dec 1 2); (QcZ 0, QcZ 1)]] [Some true; Some true; Some true]) with
     | Returned (xs, ys) _ => same xs (zs [0]) && same ys (zs [1])
     | Waiting => false
     end = true.
Proof. vm_compute. reflexivity. Qed.
(** 374-464: lines (1, 1), (5, 3) before and (1, 4), (6, 7) after. *)
Definition no_taper (n : nat) : list Qc := repeat 1%Qc n.
Definition line_same (x : option line) (y : option (Z * Z * Z * Z)) : bool :=
  match x, y with
  | None, None => true
  | Some ((a, b), (c, d)), Some (a', b', c', d') => Qceqb a (QcZ a') && Qceqb b (QcZ b') && Qceqb c (QcZ c') && Qceqb d (QcZ d')
  | _, _ => false
  end.
Definition muted (loc time_ax : string) (u : list (Z * Z)) (s e : option (Z * Z * Z * Z)) : bool :=
  with_array [sensor_0; sensor_5; sensor_6] (source_at (-5)) (fun a =>
    match interactive_mute a no_taper loc time_ax (mkUser (map (fun p => [(QcZ (fst p), QcZ (snd p))]) u) (map (fun _ => Some false) u)) with
    | Returned (_, Ok (x, y)) _ => line_same x s && line_same y e
    | _ => false
    end).
Example array_interactive_mute :
  let before := Some (1, 1, 5, 3) in let after := Some (1, 4, 6, 7) in
  muted "before" "y" [(1, 1); (5, 3)] before None && muted "after" "y" [(1, 4); (6, 7)] None after
  && muted "both" "y" [(1, 1); (5, 3); (1, 4); (6, 7)] before after
  && muted "before" "x" [(1, 1); (3, 5)] before None && muted "after" "x" [(4, 1); (7, 6)] None after
  && muted "both" "x" [(1, 1); (3, 5); (4, 1); (7, 6)] before after = true.
Proof. vm_compute. reflexivity. Qed.
(** 466-481. *)
Example array_mute :
  dummy (repeat 1%Qc 100) 1 0 5 (QcZ 2) (-5) (fun a =>
    after (mute a no_taper (Some ((QcZ 0, QcZ 0), (QcZ 2, QcZ 3))) (Some ((QcZ 0, QcZ 6), (QcZ 4, QcZ 12)))) (fun b =>
      sames (map (fun s => amp (ser s)) (sensors b)) (map (fun k => repeat 0%Qc k ++ repeat 1%Qc 6 ++ repeat 0%Qc (94 - k)) [0; 3; 6; 9; 12]%nat))) = true.
Proof. vm_compute. reflexivity. Qed.
(** 483-507. *)
Definition level (i : nat) : list Qc := repeat (QcN i) 4.
Definition leveled (x : Z) (p : array -> bool) : bool :=
  with_array (map (fun i => mkSensor (mkSeries (level i) 1 1 0 1) (QcN i * QcZ 2)%Qc 0 0) (range 5)) (source_at x) p.
Example array_flipped :
  leveled (-5) (fun a => sames (fst (flipped a)) (map level [0; 1; 2; 3; 4]%nat) && same (snd (flipped a)) (zs [5; 7; 9; 11; 13]))
  && leveled 18 (fun a => sames (fst (flipped a)) (map level [4; 3; 2; 1; 0]%nat) && same (snd (flipped a)) (zs [10; 12; 14; 16; 18])) = true.
Proof. vm_compute. reflexivity. Qed.
(** 587-611. *)
Example array_from_array1d : with_array [sensor_1; sensor_5] (source_at 1) (fun a => returns (array_eq a) (copy_array a)) = true.
Proof. vm_compute. reflexivity. Qed.
Example array_eq_test :
  with_array [sensor_0; sensor_1] (source_at 0) (fun a =>
    with_array [sensor_0] (source_at 0) (fun c => negb (array_eq a c)) && with_array [sensor_0; sensor_1] (source_at 1) (fun d => negb (array_eq a d))
    && with_array [sensor_5; sensor_6] (source_at 0) (fun e => negb (array_eq a e)) && with_array [sensor_0; sensor_1] (source_at 0) (array_eq a)) = true.
Proof. vm_compute. reflexivity. Qed.

(** ** test_snr.py, 34-71: random amplitudes, hence any spectrum. *)
Definition steady (v : Qc) (p : array -> bool) : bool := dummy (repeat v 100) (dec 1 100) 0 5 (QcZ 2) (-5) p.
Definition flat (l : list Qc) : list Qc := l.
Definition five_to_fifty : list Qc := map (fun i => QcN (5 + i)) (range 46).
Example snr_test :
  steady (QcZ 5) (fun signal => steady 1 (fun noise =>
    returns (fun r => same (fst r) five_to_fifty) (snd (snr_from_arrays flat signal noise (QcZ 5) (QcZ 50) false None))
    && after (array_trim noise 0 (dec 1 4)) (fun short =>
      raises IndexError (snd (snr_from_arrays flat signal short (QcZ 5) (QcZ 50) false None))
      && returns (fun r => same (fst r) five_to_fifty) (snd (snr_from_arrays flat signal short (QcZ 5) (QcZ 50) true (Some 1%Qc)))))) = true.
Proof. vm_compute. reflexivity. Qed.
