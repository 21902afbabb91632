(* The expected values of the repository's own unit tests of PeaksSuite and Statistics (/repo/test/test_peakssuite.py, test_stats.py),
   computed with the model.  Each example cites the lines of the test.  Left out: test_from_max (tools/testmax.py), test_plot_statistics
   (it only counts calls), objects of other classes, and the fill with the random generator of numpy. *)
From Coq Require Import String.
From Verif Require Import TestTools TestPeaks PeaksModel PlotModel SuiteModel StatsModel.
Import ListNotations.
Local Open Scope Z_scope.
Local Open Scope string_scope.

(** nan is written 0 where the data have no zero. *)
Definition n0 (l : list Z) : list flt := map (fun z => if (z =? 0)%Z then NaN else fl z) l.
Definition vec (l : list flt) : nd flt := ND (S1 (List.length l)) l.
Definition mk2 (f v : list flt) (i : string) : peaks := match new_peaks (vec f) (vec v) i [] with Ok p => p | Err _ => dummy end.
Definition made_suite (ps : list peaks) (k : suite peaks -> bool) : bool := returns k (from_peaks identifier ps).
Definition same_peaks (p q : peaks) : bool := equal (peaks_eq p q).
Definition named (p : peaks) (i : string) : peaks := mkPeaks i (fields p) (valid p).

(** ** test_peakssuite.py, 43-67 *)
Example test_init_append :
  let p0 := mk2 (n0 [1; 2; 3]) (n0 [4; 5; 6]) "p0" in
  let p1 := match new_peaks (two [n0 [7; 0; 9]; n0 [4; 5; 6]]) (two [n0 [1; 0; 2]; n0 [7; 8; 9]]) "p1" [] with Ok p => p | _ => dummy end in
  let s := new_suite identifier p0 in
  match members s, ids s with [p], [i] => same_peaks p p0 && String.eqb i "p0" | _, _ => false end
  && after (append identifier s p1) (fun s1 =>
       forallb (fun pq => same_peaks (fst pq) (snd pq)) (combine [p0; p1] (members s1)) && Nat.eqb (List.length (members s1)) 2
       && raises KeyError (snd (append identifier s1 p1))) = true.
Proof. vm_compute. reflexivity. Qed.

(** 69-108 *)
Definition suite_rejects (f v : list Z) (x : rejection) (g w : list Z) : bool :=
  let p i := mk2 (n0 f) (n0 v) i in
  let w0 := mkWorld [p "0"; p "1"] [] in
  match reject_refs w0 [0; 1]%nat x with
  | (w1, Ok _) => forallb (fun q => same_peaks (mk2 (n0 g) (n0 w) (identifier q)) q) (objs w1)
  | _ => false
  end.
Example test_suite_rejections :
  suite_rejects [1; 2; 0; 3] [4; 5; 0; 6] (Limits "frequency" (Some (d_ 1 2)) (Some (d_ 5 2))) [1; 2] [4; 5]
  && suite_rejects [1; 3; 5; 0; 7] [1; 3; 5; 0; 7] (Box "frequency" (fl 4, fl 8) "velocity" (fl 4, fl 8)) [1; 3] [1; 3] = true.
Proof. vm_compute. reflexivity. Qed.

(** 110-262 *)
Definition close (l m : list flt) : bool := match allclose l m with Ok b => b && Nat.eqb (List.length l) (List.length m) | Err _ => false end.
Definition limits_are (xt att yt : string) (lim : flt * flt) (xs ys x1 y1 x2 y2 : list flt) : bool :=
  returns (fun r => let '((a, b), (c, d)) := r in close x1 a && close y1 b && close x2 c && close y2 d) (calc_resolution_limits xt att yt lim xs ys).
Definition none_for (xt att yt : string) (lim : flt * flt) (xs ys : list flt) : bool := raises NotImplementedError (calc_resolution_limits xt att yt lim xs ys).
Definition tau : flt := fmul f2 np_pi.
Example test_calc_resolution_limit :
  let xs := zz [1; 100] in let o := zz [0; 0] in let l := (fl 2, fl 50) in let k := (fdiv tau (fl 2), fdiv tau (fl 50)) in
  limits_are "frequency" "wavelength" "velocity" l xs o xs (zz [2; 200]) xs (zz [50; 5000])
  && limits_are "frequency" "wavelength" "wavenumber" l xs o xs [np_pi; np_pi] xs [fdiv tau (fl 50); fdiv tau (fl 50)]
  && limits_are "frequency" "wavelength" "slowness" l xs o xs [d_ 1 2; d_ 1 200] xs [d_ 1 50; d_ 1 5000]
  && forallb (fun y => none_for "frequency" "wavelength" y l xs o) ["frequency"; "wavelength"]
  && limits_are "frequency" "wavenumber" "velocity" k xs o xs (zz [2; 200]) xs (zz [50; 5000])
  && limits_are "frequency" "wavenumber" "wavenumber" k xs o xs [fst k; fst k] xs [snd k; snd k]
  && limits_are "frequency" "wavenumber" "slowness" k xs o xs [d_ 1 2; d_ 1 200] xs [d_ 1 50; d_ 1 5000]
  && forallb (fun y => none_for "frequency" "wavenumber" y k xs o) ["frequency"; "wavelength"]
  && forallb (fun a => none_for "frequency" a "slowness" k xs o) ["frequency"; "slowness"]
  && forallb (fun al : string * (flt * flt) => let (a, lim) := al in
       limits_are "wavelength" a "velocity" lim (zz [2; 50]) (zz [100; 500]) (zz [2; 2]) (zz [100; 500]) (zz [50; 50]) (zz [100; 500])
       && limits_are "wavelength" a "slowness" lim (zz [2; 50]) [d_ 1 100; d_ 1 500] (zz [2; 2]) [d_ 1 100; d_ 1 500] (zz [50; 50]) [d_ 1 100; d_ 1 500]
       && forallb (fun y => none_for "wavelength" a y lim (zz [2; 50]) [d_ 1 100; d_ 1 500]) ["frequency"; "wavelength"]
       && forallb (fun b => none_for "wavelength" b "slowness" lim (zz [2; 50]) [d_ 1 100; d_ 1 500]) ["velocity"; "frequency"])
       [("wavelength", l); ("wavenumber", k)]
  && forallb (fun x => none_for x "wavenumber" "slowness" k (zz [2; 50]) [d_ 1 100; d_ 1 500]) ["wavenumber"; "slowness"] = true.
Proof. vm_compute. reflexivity. Qed.

(** 294-326, on a small suite in the place of data/peak/suite_raw.json *)
Example test_plot :
  let ps := [mk2 (zz [1; 2; 3]) (zz [4; 5; 6]) "a"; mk2 (zz [1; 2; 3]) (zz [7; 8; 9]) "b"] in
  match suite_plot ps (TSeq ["frequency"; "wavelength"; "frequency"]) (TSeq ["velocity"; "velocity"; "slowness"]) None [] None with
  | (_, Ok (Some axs)) => Nat.eqb (List.length axs) 3 | _ => false end
  && match suite_plot ps (TStr "frequency") (TStr "velocity") (Some [[]]) [] None with (_, Ok None) => true | _ => false end
  && raises IndexError (snd (suite_plot ps (TStr "frequency") (TStr "velocity") (Some [[]; []; []]) [] None))
  && raises IndexError (snd (suite_plot ps (TStr "frequency") (TStr "velocity") None [] (Some [None; None; None])))
  && match suite_plot ps (TStr "frequency") (TStr "velocity") (Some [[]]) [("label", AStr "tada")] None with
     | ([ax], Ok None) => match legend ax with [l] => String.eqb l "tada" | _ => false end | _ => false end = true.
Proof. vm_compute. reflexivity. Qed.

(** 328-349 *)
Example test_prepare_plot_kwargs :
  prepare_plot_kwargs [("color", AStr "color"); ("label", AStr "label")] 3 = Ok (repeat [("color", KStr "color"); ("label", KStr "label")] 3)
  /\ prepare_plot_kwargs [("color", ASeq [KStr "c0"; KStr "c1"; KStr "c2"]); ("label", AStr "label")] 3
     = Ok (map (fun c => [("color", KStr c); ("label", KStr "label")]) ["c0"; "c1"; "c2"])
  /\ prepare_plot_kwargs [("color", AObj "5")] 3 = Err NotImplementedError.
Proof. vm_compute. repeat split. Qed.

(** 351-408: the two boxes are drawn by clicks on their corners; the third run of the test only counts the drawing of limits *)
Definition clicks (x1 y1 x2 y2 : Z) : gesture := mkGesture [(fl x1, fl y1); (fl x2, fl y2)] [0; 0]%nat.
Example test_interactive_trimming :
  let a := mk2 [d_ 1 2; d_ 1 2] [d_ 1 2; d_ 3 2] "a" in let b := mk2 [d_ 3 2; d_ 3 2] [d_ 1 2; d_ 3 2] "b" in
  match interactive_trimming ["frequency"] ["velocity"] [a; b] [clicks 1 0 2 1; clicks 1 1 1 1] ["0"] with
  | ([a1; b1], Finished) =>
      public_is a1 "frequency" [d_ 1 2; d_ 1 2] && public_is a1 "velocity" [d_ 1 2; d_ 3 2]
      && public_is b1 "frequency" [d_ 3 2] && public_is b1 "velocity" [d_ 3 2]
      && match interactive_trimming ["frequency"] ["velocity"] [a1; b1] [clicks 1 0 2 1; clicks 1 1 1 1] ["5"; "0"] with
         | (_, Finished) => true | _ => false end
  | _ => false
  end = true.
Proof. vm_compute. reflexivity. Qed.

(** 440-536.  The square root is left out (variances are compared) and the matrix of which the correlation is taken stands for it. *)
Definition col (j : nat) (m : list (list Z)) : list Qc := map (fun r => QcZ (nth j r 0)) m.
Definition mean_of (l : list Qc) : Qc := (fold_right Qcplus 0 l / QcN (List.length l))%Qc.
Definition var_of (l : list Qc) : Qc :=
  (fold_right Qcplus 0 (map (fun x => (x - mean_of l) * (x - mean_of l)) l) / QcN (List.length l - 1))%Qc.
Definition statistics_are (ps : list peaks) (xx : list flt) (vxx : list flt) (v : list (list Z)) : bool :=
  returns (fun r => let '(a, b, c, d) := r in
             fsames vxx a && fsames (map (fun j => Fin (mean_of (col j v))) (seq 0 (List.length vxx))) b
             && fsames (map (fun j => Fin (var_of (col j v))) (seq 0 (List.length vxx))) c
             && match d with Some m => rows_same (map (fun j => map Fin (col j v)) (seq 0 (List.length vxx))) m | None => false end)
          (statistics (fun x => x) (fun m => m) ps "frequency" "velocity" xx false 3 false).
Definition with_power (f v p : list (list Z)) (i : string) : peaks :=
  match new_peaks (two (map n0 f)) (two (map n0 v)) i [("power", two (map n0 p))] with Ok q => q | Err _ => dummy end.
Example test_statistics :
  let values := [[1; 2; 3; 4; 5]; [4; 5; 7; 8; 9]; [4; 3; 6; 4; 2]] in
  let frq := zz [1; 2; 3; 4; 5] in
  let ps := map (fun v => mk2 frq (zz v) "k") values in
  let frq' := d_ 1 5 :: frq in
  let ps' := [mk2 frq' (repeat NaN 6) "0"; mk2 frq' (n0 [0; 1; 2; 3; 4; 5]) "1"; mk2 frq' (zz [0; 4; 5; 7; 8; 9]) "2"; mk2 frq' (zz [0; 4; 3; 6; 4; 2]) "3"] in
  let f := [[1; 3; 5; 7; 0]; [0; 3; 5; 7; 9]; [1; 3; 5; 7; 9]] in
  let p12 := [[4; 6; 7; 1; 0]; [0; 3; 7; 5; 4]; [1; 3; 5; 1; 2]] in
  let ps2 := [with_power f [[4; 6; 7; 1; 0]; [0; 3; 2; 5; 4]; [1; 3; 5; 1; 2]] [[4; 3; 5; 1; 0]; [0; 3; 7; 5; 4]; [1; 6; 7; 1; 2]] "0";
              with_power f [[8; 8; 7; 7; 0]; [0; 2; 1; 3; 8]; [4; 1; 4; 1; 4]] p12 "1";
              with_power f [[2; 4; 1; 1; 0]; [0; 8; 1; 3; 2]; [5; 2; 9; 4; 8]] p12 "2"] in
  statistics_are ps frq frq values
  && raises ValueError (statistics (fun x => x) (fun m => m) (firstn 2 ps) "frequency" "velocity" frq true 3 false)
  && statistics_are ps' frq' frq values
  && statistics_are ps2 (zz [1; 3; 5; 7; 9]) (zz [1; 3; 5; 7; 9]) [[4; 3; 2; 5; 4]; [8; 8; 7; 3; 8]; [2; 4; 1; 3; 2]] = true.
Proof. vm_compute. reflexivity. Qed.

(** 545-594 *)
Definition drops_to (po : Qc) (cnt : Z) (xx : list Z) (m : list (list Z)) (xx' : list Z) (m' : list (list Z)) : bool :=
  let (a, b) := drop po (dec 2 5) cnt (n0 xx) (map n0 m) in fsames (n0 xx') a && rows_same (map n0 m') b.
Example test_drop :
  drops_to (dec 4 5) 3 [1; 2; 3] [[1; 2; 3]; [4; 5; 6]; [7; 8; 9]; [10; 1; 2]] [1; 2; 3] [[1; 2; 3]; [4; 5; 6]; [7; 8; 9]; [10; 1; 2]]
  && forallb (fun p => drops_to p 3 [1; 2; 3; 4] [[1; 2; 3; 0]; [4; 5; 6; 0]; [7; 8; 9; 0]; [10; 1; 2; 0]] [1; 2; 3] [[1; 2; 3]; [4; 5; 6]; [7; 8; 9]; [10; 1; 2]])
             [dec 0 1; dec 1 2; dec 1 1]
  && forallb (fun p => drops_to p 3 [1; 2; 3] [[1; 2; 3]; [7; 8; 9]; [10; 1; 2]; [0; 0; 0]] [1; 2; 3] [[1; 2; 3]; [7; 8; 9]; [10; 1; 2]])
             [dec 1 10; dec 1 2; dec 1 1]
  && drops_to (dec 4 5) 3 [1; 2; 3; 4; 5] [[1; 2; 3; 4; 5]; [7; 8; 9; 10; 1]; [1; 2; 3; 4; 0]] [1; 2; 3; 4] [[1; 2; 3; 4]; [7; 8; 9; 10]; [1; 2; 3; 4]] = true.
Proof. vm_compute. reflexivity. Qed.

(** 596-643 *)
Example test_suite_json :
  let kw := [("azimuth", two [n0 [1; 0; 5; 2; 5; 1; 4]; n0 [4; 5; 0; 8; 7; 9; 5]]); ("power", two [n0 [1; 0; 5; 2; 5; 1; 2]; n0 [3; 4; 0; 7; 6; 3; 4]])] in
  let p i := match new_peaks (two [n0 [1; 0; 5; 6; 1; 5; 3]; n0 [2; 7; 0; 2; 8; 9; 3]]) (two [n0 [5; 0; 2; 1; 1; 5; 4]; n0 [2; 7; 0; 4; 8; 7; 4]]) i kw
             with Ok q => q | Err _ => dummy end in
  let ps := [p "0"; p "1"; p "2"] in
  let fs := map (fun q => final Absent (fst (to_json q false Absent))) ps in
  made_suite ps (fun s => returns (fun t => equal (suite_eq s t)) (suite_from_json fs)
    && match suite_to_json ps Absent with
       | (st, Ok _) => returns (fun t => equal (suite_eq s t)) (suite_from_json [final Absent st]) | _ => false end)
  && (let d := [("frequency", JArr (map JNum (zz [1; 2; 3]))); ("velocity", JArr (map JNum (zz [4; 5; 6])))] in
     returns (fun s => returns (fun p => match members s with q :: _ => same_peaks p q | [] => false end) (snd (from_dict d "test")))
             (suite_from_dicts [JObj [("test", JObj d)]])) = true.
Proof. vm_compute. reflexivity. Qed.

(** 684-711, with references in the place of objects: 0 to 5 are called 0, 1, 3, 4, 0, 1 *)
Example test_from_peakssuite :
  let name r := nth r ["0"; "1"; "3"; "4"; "0"; "1"] "" in
  let s l := from_peaks name l in
  match s [0; 1]%nat, s [2; 3]%nat, s [4; 5]%nat with
  | Ok s0, Ok s1, Ok s2 =>
      match from_peakssuite name [s0], from_peakssuite name [s0; s1], from_peakssuite name [s0; s2] with
      | Ok a, Ok b, Err KeyError => (members a, members b) | _, _, _ => ([], []) end
  | _, _, _ => ([], [])
  end = ([0; 1], [0; 1; 2; 3])%nat.
Proof. vm_compute. reflexivity. Qed.

(** 713-726 *)
Example test_suite_eq :
  let p0 := mk2 (zz [1; 2; 3]) (zz [4; 5; 6]) "0" in let p1 := mk2 (zz [1; 2; 3]) (zz [7; 8; 9]) "1" in
  let p2 := mk2 (zz [1; 2; 3]) (zz [0; 1; 2]) "2" in
  made_suite [p0; p1; p2] (fun a => made_suite [p1; p2] (fun c => made_suite [p1] (fun d => made_suite [p1; p0; p2] (fun e =>
    made_suite [p0; p1; p2] (fun f =>
      match map (suite_eq a) [a; c; d; e; f] with [Ok true; Ok false; Ok false; Ok false; Ok true] => true | _ => false end))))) = true.
Proof. vm_compute. reflexivity. Qed.

(** ** test_stats.py, 36-75 *)
Example test_sort :
  let e := map n0 [[1; 2; 3; 0; 0]; [1; 2; 0; 0; 0]; [0; 1; 2; 3; 0]; [0; 1; 2; 3; 4]; [0; 0; 0; 1; 2]] in
  rows_same e (sort_rows 5 e)
  && rows_same e (sort_rows 5 (map n0 [[0; 1; 2; 3; 0]; [0; 0; 0; 1; 2]; [1; 2; 3; 0; 0]; [0; 1; 2; 3; 4]; [1; 2; 0; 0; 0]]))
  && rows_same (map n0 [[1; 2; 3; 4; 0; 0; 0; 0; 0]; [1; 2; 3; 4; 5; 0; 0; 0; 0]; [0; 1; 2; 3; 4; 0; 0; 0; 0]; [0; 0; 0; 1; 2; 3; 4; 5; 0];
                        [0; 0; 0; 0; 1; 2; 3; 4; 5]; [0; 0; 0; 0; 0; 0; 1; 2; 3]])
               (sort_rows 9 (map n0 [[0; 0; 0; 1; 2; 3; 4; 5; 0]; [0; 1; 2; 3; 4; 0; 0; 0; 0]; [1; 2; 3; 4; 0; 0; 0; 0; 0]; [1; 2; 3; 4; 5; 0; 0; 0; 0];
                        [0; 0; 0; 0; 1; 2; 3; 4; 5]; [0; 0; 0; 0; 0; 0; 1; 2; 3]])) = true.
Proof. vm_compute. reflexivity. Qed.
(** 77-112 *)
Example test_identify_regions :
  let full := map n0 [[1; 2; 3; 4; 5]; [1; 2; 3; 4; 5]; [1; 2; 3; 4; 5]] in
  let part := map n0 [[1; 2; 3; 0; 0]; [1; 2; 3; 4; 5]; [0; 0; 3; 4; 5]] in
  map (identify_regions 5 full) [dec 0 1; dec 1 2; dec 1 1] = repeat (Ok [((0, 0), (3, 5))]%nat) 3
  /\ map (identify_regions 5 part) [dec 0 1; dec 4 6; dec 11 15] = repeat (Ok [((0, 0), (3, 5))]%nat) 3
  /\ identify_regions 5 part (dec 77 100) = Ok [((0, 0), (3, 3)); ((1, 3), (3, 5))]%nat.
Proof. vm_compute. repeat split. Qed.
(** 114-168, with means and standard deviations given and a generator that returns the mean in the place of no uncertainty *)
Example test_fill :
  let r := zz [1; 2; 3; 4; 5] in
  rows_same (map zz [[1; 2; 3]; [1; 2; 3]; [1; 2; 3]]) (fst (fill_data (fun _ _ _ => fl 9) 3 (map zz [[1; 2; 3]; [1; 2; 3]; [1; 2; 3]]) (zz [1; 2; 3]) (zz [0; 0; 0]) 0))
  && rows_same (repeat r 5) (fst (fill_data (fun _ mu _ => mu) 5
       (map n0 [[1; 0; 3; 4; 5]; [1; 2; 3; 0; 5]; [1; 0; 3; 4; 0]; [1; 2; 0; 4; 5]; [1; 2; 3; 4; 5]]) r (zz [0; 0; 0; 0; 0]) 0))
  && (let (m, k) := fill_data (fun _ _ _ => fl 2) 3 (map n0 [[1; 2; 3]; [1; 2; 3]; [1; 0; 3]]) (zz [1; 2; 3]) (zz [0; 0; 0]) 0 in
     rows_same (map zz [[1; 2; 3]; [1; 2; 3]; [1; 2; 3]]) m && Nat.eqb k 1) = true.
Proof. vm_compute. reflexivity. Qed.
(** 126-147: the order of the places that are filled, column by column and downwards *)
Example test_fill_order :
  rows_same (fst (fill_data (fun k _ _ => fl (100 + Z.of_nat k)) 5 (map n0 [[1; 0; 3; 4; 5]; [3; 2; 8; 0; 5]; [1; 0; 3; 4; 0]; [2; 1; 0; 1; 8]; [1; 2; 3; 4; 5]])
                             (zz [1; 2; 3; 4; 5]) (zz [1; 1; 1; 1; 1]) 0))
            (map zz [[1; 100; 3; 4; 5]; [3; 2; 8; 103; 5]; [1; 101; 3; 4; 104]; [2; 1; 102; 1; 8]; [1; 2; 3; 4; 5]]) = true.
Proof. vm_compute. reflexivity. Qed.
(** 170-199 *)
Example test_calc_density :
  same [calc_density (map zz [[1; 2; 3]; [1; 2; 3]; [1; 2; 3]]) (0, 0)%nat (2, 2)%nat; calc_density (map zz [[1; 2; 3]; [1; 2; 3]; [1; 2; 3]]) (0, 0)%nat (0, 0)%nat;
        calc_density (map n0 [[1; 2; 0]; [1; 0; 3]; [1; 2; 0]]) (0, 0)%nat (2, 2)%nat; calc_density (map n0 [[1; 2; 0]; [1; 0; 3]; [1; 2; 0]]) (0, 0)%nat (1, 1)%nat]
       [dec 1 1; dec 1 1; dec 6 9; dec 3 4] = true.
Proof. vm_compute. reflexivity. Qed.
