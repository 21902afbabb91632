(* The expected values of the repository's own unit tests of wavefield transforms, of the registries, of the descriptions of the workflows
   and of extract_mseed (/repo/test/test_wavefieldtransforms.py, test_register.py, test_maswworkflows.py, test_utils.py), computed with the
   model.  Each example cites the lines of the test.  Left out: np.geomspace (not computable over the rationals), what only counts calls of
   mocked objects, and the samples in the recordings of test_utils.py (the stream is the list of the files read). *)
From Coq Require Import String.
From Verif Require Import TestTools TransformModel WorkflowModel DescribeModel ExtractModel.
Import ListNotations.
Local Open Scope Z_scope.
Local Open Scope string_scope.

Definition no_geomspace : Qc -> Qc -> Z -> result (list Qc) := fun _ _ _ => Err RuntimeError.
Definition zf (l : list Z) : list flt := map (fun z => Fin (QcZ z)) l.
Definition upto (lo n : nat) : list Qc := map QcN (seq lo n).

(** ** test_wavefieldtransforms.py, 34-43 *)
Example test_create_vector :
  forallb (fun sp => returns (same (map (fun i => QcZ 100 + QcN i * (QcZ 300 / QcZ 99))%Qc (seq 0 100))) (create_vector no_geomspace (QcZ 100) (QcZ 400) 100 sp))
          ["linear"; "lin"] = true.
Proof. vm_compute. reflexivity. Qed.
(** 81-109 *)
Example test_frequency_keep_ids :
  returns (fun ids => returns (same (upto 5 26)) (take (upto 0 100) ids)) (frequency_keep_ids (upto 0 100) (QcZ 5) (QcZ 30) 1)
  && (let half := map (fun x => x * dec 1 2)%Qc (upto 0 100) in
     returns (fun ids => returns (same (upto 5 26)) (take half ids)) (frequency_keep_ids half (QcZ 5) (QcZ 30) 2)) = true.
Proof. vm_compute. reflexivity. Qed.
(** 111-126 *)
Example test_normalize_power :
  let p := map zf [[0; 1; 2; 3]; [4; 5; 6; 7]; [8; 9; 10; 11]] in
  let w := new_empty (upto 0 4) (upto 0 3) p in
  let over d := map (map (fun x => fdiv x (Fin (QcZ d)))) p in
  after (normalize_real w "none") (fun v => rows_same p (power v))
  && after (normalize_real w "absolute-maximum") (fun v => rows_same (over 11) (power v))
  && after (normalize_real w "frequency-maximum") (fun v => rows_same (map (fun r => map2 fdiv r (zf [8; 9; 10; 11])) p) (power v)) = true.
Proof. vm_compute. reflexivity. Qed.
(** 180-198 *)
Example test_empty_from_array :
  let s n := mkSensor (mkSeries (repeat 0%Qc 100) (dec 1 100) 1 0 1) (QcZ (2 * n)) 0 0 in
  returns (fun a => returns (fun w => same (upto 5 46) (wfrq w) && Z.eqb (wn w) 0 && Nat.eqb (List.length (power w)) 30)
                            (empty_from_array no_geomspace a (mkWt (QcZ 5) (QcZ 50) (QcZ 75) (QcZ 300) 30 "lin")))
          (new_array (map s [0; 1; 2; 3; 4]) (mkSource (QcZ (-5)) 0 0)) = true.
Proof. vm_compute. reflexivity. Qed.
(** 200-219 *)
Example test_stack :
  let w p := new_empty (zs [5; 10]) (zs [100; 200]) (map zf p) in
  let a := w [[3; 5]; [7; 9]] in
  let p := map zf [[1; 2]; [3; 4]] in
  Z.eqb (wn a) 0
  && after (stack a (mkStackable (Some p) (Some 1))) (fun a' => rows_same p (power a') && raises AttributeError (snd (stack a' (mkStackable None (Some 1))))) = true.
Proof. vm_compute. reflexivity. Qed.

(** ** test_register.py, 27-58 *)
Example test_register :
  let r1 := register OfTransforms "mock" 1%nat (mkRegistries [] []) in
  let r2 := register OfTransforms "mock" 2%nat r1 in
  (create_class OfTransforms "mock" r1, create_class OfTransforms "mock" r2) = (Ok 1, Ok 2)%nat.
Proof. vm_compute. reflexivity. Qed.

(** ** test_utils.py, 35-71 *)
Definition files : obspy (list string) :=
  mkObspy (fun f => Ok [f]) (fun a b => (a ++ b)%list) (fun s => Ok s) (fun s _ _ => Ok s) (fun s => s) (fun _ _ => Ok tt) (fun _ => Ok tt).
Definition on (y m d h : Z) : civil := mkCivil y m d h.
Example test_extract_mseed :
  extract_mseed files (Ok [mkRow "ex_array_0" "array_0" 1 (on 2020 12 31 0) 0 0 (on 2020 12 31 0) 30 0;
                           mkRow "ex_array_1" "array_1" 1 (on 2020 12 31 4) 0 0 (on 2020 12 31 6) 0 0;
                           mkRow "ex_array_2" "array_2" 1 (on 2020 12 31 23) 30 0 (on 2021 1 1 0) 30 0]) "NW" "mseed" []
  = (let h0 := "NW.STN01_20201231_000000.mseed" in let h4 := "NW.STN01_20201231_040000.mseed" in let h5 := "NW.STN01_20201231_050000.mseed" in
    let h6 := "NW.STN01_20201231_060000.mseed" in let h23 := "NW.STN01_20201231_230000.mseed" in let n0 := "NW.STN01_20210101_000000.mseed" in
    ([Read h0; MadeDir "ex_array_0"; Wrote "ex_array_0/NW.STN01.array_0.mseed" [h0];
      Read h4; Read h5; Read h6; MadeDir "ex_array_1"; Wrote "ex_array_1/NW.STN01.array_1.mseed" [h4; h5; h6];
      Read h23; Read n0; MadeDir "ex_array_2"; Wrote "ex_array_2/NW.STN01.array_2.mseed" [h23; n0]], Ok tt))
  /\ extract_mseed files (Ok [mkRow "ex_array_3" "array_3" 1 (on 2020 12 31 1) 0 0 (on 2020 12 31 0) 0 0]) "NW" "mseed" [] = ([], Err ValueError)
  /\ extract_mseed files (Err ValueError) "NW" "mseed" [] = ([], Err NotImplementedError).
Proof. vm_compute. repeat split. Qed.

(** ** test_maswworkflows.py, 74-84, 160-170, 226-237: the descriptions.  [10] ends a line. *)
Definition lf : string := String (Ascii.ascii_of_nat 10) "".
Definition steps (first : string) : list string :=
  [first; "Check array is acceptable."; "Perform trim in space (if desired)."; "Perform linear detrend on each trace.";
   "Perform trim in time (if desired)."; "Perform mute (if desired)."; "Perform pad  (if desired)."; "Perform transform."].
Definition described (name : string) (l : list string) (tail : string) : string :=
  lf ++ "MaswWorkflow: " ++ name ++ lf ++ String.concat lf (map (fun s => "  - " ++ s) l) ++ tail.
Example test_str :
  workflow_str TimeDomain = described "time-domain" (steps "Create Array1D from files.") ""
  /\ workflow_str Single = described "single" (steps "Create Array1D from file (ignore if multiple).") ""
  /\ workflow_str FrequencyDomain
     = described "frequency-domain" (steps "Create Array1D from file." ++ ["Repeat steps for remaining files, stacking in frequency-domain."])%list lf.
Proof. vm_compute. repeat split. Qed.
