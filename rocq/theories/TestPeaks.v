(* The expected values of the repository's own unit tests of Peaks (/repo/test/test_peaks.py), computed with the model.  Each example
   cites the lines of the test.  test_from_max is in tools/testmax.py (it is too long for the build), test_configure_axes replaces the
   table of defaults, which the model does not allow, and the object without an identifier and the one that is no Peaks object in test__eq__
   are outside the model's type of objects. *)
From Coq Require Import String.
From Verif Require Import TestTools PeaksModel PlotModel.
Import ListNotations.
Local Open Scope Z_scope.
Local Open Scope string_scope.

Definition fl (x : Z) : flt := Fin (QcZ x).
Definition one (l : list Z) : nd flt := ND (S1 (List.length l)) (map fl l).
Definition two (m : list (list flt)) : nd flt := ND (S2 (List.length m) (List.length (hd [] m))) (List.concat m).
Definition zz (l : list Z) : list flt := map fl l.
Definition public_is (p : peaks) (k : string) (l : list flt) : bool := returns (fsames l) (public p k).
Definition stored_is (p : peaks) (k : string) (a : nd flt) : bool :=
  returns (fun b => shape_eqb (shp a) (shp b) && fsames (dat a) (dat b)) (stored p k).
Definition made (r : result peaks) (p : peaks -> bool) : bool := returns p r.
Definition all6 : list string := ["frequency"; "velocity"; "azimuth"; "ellipticity"; "noise"; "power"].
Definition check (l : list (string * nd flt)) (p : peaks -> string -> nd flt -> bool) (q : peaks) : bool :=
  forallb (fun kv => p q (fst kv) (snd kv)) l.

(** 34-73: setUpClass. *)
Definition frq := [100; 50; 30; 10; 5; 3].
Definition vel := [100; 120; 130; 140; 145; 150].
Definition azi := [10; 15; 20; 35; 10; 20].
Definition kw1 := [("azimuth", one azi); ("ellipticity", one [10; 15; 20; 35; 11; 20]); ("noise", one [10; 15; 20; 35; 12; 20]);
                   ("power", one [10; 15; 20; 35; 13; 20])].
Definition frq2 := two [zz [75; 65; 20]; zz [75; 65; 30]].
Definition vel2 := two [zz [50; 70; 85]; zz [55; 80; 75]].
Definition kw2 := [("azimuth", two [zz [10; 15; 20]; zz [35; 10; 20]]); ("ellipticity", two [zz [11; 15; 20]; zz [35; 11; 20]]);
                   ("noise", two [zz [12; 15; 20]; zz [35; 12; 20]]); ("power", two [zz [13; 15; 20]; zz [35; 13; 20]])].
Definition gaps (a b c d : Z) : nd flt := two [[NaN; fl a; fl b]; [fl c; fl d; NaN]].
Definition frq2n := gaps 65 20 75 65.
Definition vel2n := gaps 70 85 55 80.
Definition kw2n := [("azimuth", gaps 15 20 35 10); ("ellipticity", gaps 15 20 35 11); ("noise", gaps 15 20 35 12); ("power", gaps 15 20 35 13)].
Definition flat (p : peaks) (k : string) (a : nd flt) : bool := public_is p k (dat a).
Definition flat_valid (p : peaks) (k : string) (a : nd flt) : bool := public_is p k (filter (fun x => negb (is_nan x)) (dat a)).
Definition fv (f v : nd flt) := [("frequency", f); ("velocity", v)].

(** 75-120. *)
Example test_init :
  made (new_peaks (one frq) (one vel) "-5m" []) (fun p => check (fv (one frq) (one vel)) flat p && String.eqb (identifier p) "-5m")
  && made (new_peaks (one frq) (one vel) "-5m" kw1) (check (fv (one frq) (one vel) ++ kw1) flat)
  && made (new_peaks frq2 vel2 "10m" kw2) (check (fv frq2 vel2 ++ kw2) flat)
  && made (new_peaks frq2n vel2n "nan" kw2n) (check (fv frq2n vel2n ++ kw2n) flat_valid) = true.
Proof. vm_compute. reflexivity. Qed.

(** 122-137, without the list of attributes. *)
Example test_properties :
  made (new_peaks (one frq) (one vel) "-5m" [("azimuth", one azi)])
       (fun p => public_is p "wavelength" (map (fun fv => Fin (QcZ (snd fv) / QcZ (fst fv))%Qc) (combine frq vel))
                 && returns (fun w => returns (fun k => match allclose (map (fdiv (fmul f2 np_pi)) w) k with Ok b => b | _ => false end) (public p "wavenumber"))
                            (public p "wavelength")) = true.
Proof. vm_compute. reflexivity. Qed.

(** 139-160. *)
Example test_prepare_types :
  prepare_types (TStr "frequency") (TStr "velocity") = Ok (["frequency"], ["velocity"])
  /\ prepare_types (TSeq ["frequency"]) (TSeq ["velocity"]) = Ok (["frequency"], ["velocity"])
  /\ prepare_types TOther (TStr "velocity") = Err TypeError
  /\ prepare_types (TSeq ["frequency"; "wavelength"]) (TStr "velocity") = Err IndexError.
Proof. vm_compute. repeat split. Qed.

(** 162-175. *)
Example test__plot :
  made (new_peaks (one frq) (one vel) "-5m" [])
       (fun p => returns (fun a => fsames (px a) (zz frq) && fsames (py a) (zz vel)) (plot_line p "frequency" "velocity" [] None)
                 && raises AttributeError (plot_line p "magic" "size_of_unicorn" [] None)) = true.
Proof. vm_compute. reflexivity. Qed.

(** 203-234. *)
Definition fs : nd flt := ND (S1 11) (zz [1; 5; 9] ++ [NaN] ++ zz [3; 5; 7; 4; 6; 2; 8]).
Definition vs : nd flt := ND (S1 11) (zz [1; 9; 4] ++ [NaN] ++ zz [5; 6; 8; 5; 2; 1; 4]).
Definition outside_leaves (lo hi : option flt) (f v : list Z) : bool :=
  made (new_peaks fs vs "0" []) (fun p => after (reject_limits p "frequency" lo hi) (check (fv (one f) (one v)) flat)).
Example test_reject_limits_outside :
  outside_leaves None None [1; 5; 9; 3; 5; 7; 4; 6; 2; 8] [1; 9; 4; 5; 6; 8; 5; 2; 1; 4]
  && outside_leaves None (Some (Fin (dec 9 2))) [1; 3; 4; 2] [1; 5; 5; 1]
  && outside_leaves (Some (Fin (dec 9 2))) None [5; 9; 5; 7; 6; 8] [9; 4; 6; 8; 2; 4]
  && outside_leaves (Some (Fin (dec 3 2))) (Some (Fin (dec 13 2))) [5; 3; 5; 4; 6; 2] [9; 5; 6; 5; 2; 1] = true.
Proof. vm_compute. reflexivity. Qed.

(** 236-276. *)
Definition keep (ids : list nat) (a : nd flt) : nd flt := ND (S1 (List.length ids)) (map (fun i => nth i (dat a) NaN) ids).
Definition inside_leaves (x y p : nd flt) (xt : string) (xl : flt * flt) (yt : string) (yl : flt * flt) (ids : list nat) : bool :=
  made (new_peaks x y "0" [("power", p)])
       (fun q => after (reject_box q xt xl yt yl) (check [("frequency", keep ids x); ("velocity", keep ids y); ("power", keep ids p)] flat)).
Definition bxs : nd flt := ND (S1 11) (zz [1; 2; 4] ++ [NaN] ++ zz [5; 1; 2; 6; 4; 9; 4]).
Definition bys : nd flt := ND (S1 11) (zz [1; 5; 8] ++ [NaN] ++ zz [6; 4; 7; 7; 1; 3; 5]).
Definition bpw : nd flt := ND (S1 11) (zz [0; 1; 2] ++ [NaN] ++ zz [4; 5; 6; 7; 8; 9; 10]).
Definition bps : nd flt := ND (S1 11) (zz [1; 5; 9] ++ [NaN] ++ zz [4; 5; 6; 7; 8; 1; 7]).
Definition d_ (a : Z) (b : positive) : flt := Fin (dec a b).
Definition some_nd (r : result (nd flt)) : nd flt := match r with Ok a => a | Err _ => one [] end.
Example test_reject_box_inside :
  inside_leaves bxs bys bpw "frequency" (d_ 9 2, d_ 15 2) "velocity" (d_ 7 2, d_ 17 2) [0; 1; 2; 5; 6; 8; 9; 10]%nat
  && inside_leaves bxs bys bpw "frequency" (d_ 9 2, d_ 15 2) "power" (d_ 7 2, d_ 17 2) [0; 1; 2; 5; 6; 8; 9; 10]%nat
  && inside_leaves (nd_map (fdiv f1) (some_nd (nd_map2 fmul bys bps))) (nd_map (fdiv f1) bps) bpw
                   "wavelength" (d_ 16 5, d_ 17 2) "slowness" (d_ 9 2, d_ 15 2) [0; 2; 4; 8; 9]%nat = true.
Proof. vm_compute. reflexivity. Qed.

(** 278-323. *)
Definition simplified (p : peaks) (l : list string) (pick : nd flt -> list flt) : bool :=
  forallb (fun k => returns (fun a => returns (fsames (pick a)) (simplify_mpeaks p k)) (stored p k)) l.
Definition at_rows (row : list nat) (a : nd flt) : list flt :=
  match shp a with S2 _ c => map (fun ij => at2 NaN c (dat a) (snd ij) (fst ij)) (combine (seq 0 (List.length row)) row) | _ => [] end.
Definition t3 (a b c : list Z) : nd flt := two (map (map (fun z => if (z =? 0)%Z then NaN else fl z)) [a; b; c]).
Example test_simplify_mpeaks :
  made (new_peaks (one frq) (one vel) "-5m" kw1) (fun p => forallb (fun k => returns (fun a => public_is p k a) (simplify_mpeaks p k)) all6)
  && made (new_peaks frq2n vel2n "nan" []) (fun p => simplified p ["frequency"; "velocity"] (at_rows [1; 0; 0]%nat))
  && made (new_peaks frq2n vel2n "nan" kw2n) (fun p => simplified p all6 (at_rows [1; 0; 0]%nat))
  && made (new_peaks (t3 [1; 3; 5; 7; 9; 0] [1; 3; 0; 0; 9; 2] [0; 0; 0; 7; 9; 2]) (t3 [1; 3; 5; 7; 9; 0] [3; 9; 0; 0; 9; 2] [0; 0; 0; 7; 9; 2]) "nan"
                     [("power", t3 [2; 6; 1; 8; 2; 0] [5; 1; 0; 0; 9; 1] [0; 0; 0; 1; 1; 9])])
          (fun p => simplified p ["frequency"; "velocity"; "power"] (at_rows [1; 0; 0; 0; 1; 2]%nat)) = true.
Proof. vm_compute. reflexivity. Qed.

(** 325-364.  [saved] is the file after a successful call. *)
Definition saved (p : peaks) (append : bool) (f : file) (k : file -> bool) : bool :=
  match to_json p append f with (st, Ok _) => k (final f st) | _ => false end.
Definition equal (r : result bool) : bool := returns (fun b => b) r.
Example test_to_and_from_json :
  made (new_peaks (one frq) (one vel) "-5m" [("azimuth", one azi); ("power", one [10; 15; 20; 35; 13; 20])])
       (fun p => saved p false Absent (fun f => returns (fun q => equal (peaks_eq p q)) (from_json f)))
  && made (new_peaks (one frq) (one vel) "org" []) (fun p => made (new_peaks frq2 vel2 "app" []) (fun a =>
       saved p false Absent (fun f => saved a true f (fun g => returns (fun q => equal (peaks_eq p q)) (from_json g)))
       && saved p false Absent (fun f => raises KeyError (snd (to_json p true f)))
       && saved p false Absent (fun f => let p' := mkPeaks "app" (fields p) (valid p) in
                                         saved p' false f (fun g => returns (fun q => equal (peaks_eq p' q)) (from_json g))))) = true.
Proof. vm_compute. reflexivity. Qed.

(** 366-410. *)
Definition entries (l : list (string * nd flt)) : dict json := map (fun kv => (fst kv, tolist JNum (snd kv))) l.
Example test_from_dict :
  returns (check (fv (one frq) (one vel)) flat) (snd (from_dict (entries (fv (one frq) (one vel))) "-5m"))
  && returns (check (fv (one frq) (one vel) ++ kw1) flat) (snd (from_dict (entries (fv (one frq) (one vel) ++ kw1)) "-5m"))
  && returns (check (fv frq2 vel2 ++ kw2) flat) (snd (from_dict (entries (fv frq2 vel2 ++ kw2)) "10m"))
  && returns (check (fv frq2n vel2n ++ kw2n) stored_is) (snd (from_dict (entries (fv frq2n vel2n ++ kw2n)) "10m"))
  && raises TypeError (snd (from_dict (entries (("velocity", vel2n) :: kw2n)) "0")) = true.
Proof. vm_compute. reflexivity. Qed.

(** 474-505. *)
Definition mk_ (f v : list Z) (i : string) (kws : list (string * nd flt)) : result peaks := new_peaks (one f) (one v) i kws.
Example test__eq__ :
  made (mk_ frq vel "-5m" [("azimuth", one azi)]) (fun a =>
    match map (fun r => match r with Ok b => match peaks_eq a b with Ok t => t | _ => true end | Err _ => true end)
        [mk_ frq vel "diff" [("azimuth", one azi)]; mk_ (firstn 4 frq) (firstn 4 vel) "-5m" [("azimuth", one (firstn 4 azi))];
         mk_ [0; 0; 0; 0; 0; 0] vel "-5m" [("azimuth", one azi)]; mk_ [0; 0; 0; 0; 0; 0] vel "-5m" [];
         mk_ frq vel "-5m" [("noise", one [10; 15; 20; 35; 12; 20])]; Ok a; mk_ frq vel "-5m" [("azimuth", one azi)]]
    with [false; false; false; false; false; true; true] => true | _ => false end) = true.
Proof. vm_compute. reflexivity. Qed.
