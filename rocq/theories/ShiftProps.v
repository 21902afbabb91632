(* C128: moving a survey along its line changes no result. *)
From Verif Require Import NumFacts PyFacts HeaderModel ArrayModel ArraySpec TransformModel WorkflowModel ShiftSpec ShiftProofs ShiftRunProofs.
Local Open Scope string_scope.
Local Open Scope nat_scope.
Local Open Scope list_scope.

(** Everything computed from the geometry or the records, source position and data unchanged relative to each other. *)
Theorem C128_observed : forall d a, sensors a <> [] ->
  offsets (moved d a) = offsets a /\ position_normalized (moved d a) = position_normalized a /\ spacing (moved d a) = spacing a /\
  source_inside (moved d a) = source_inside a /\ flipped (moved d a) = flipped a /\
  (forall dtr norm, timeseriesmatrix (moved d a) dtr norm = timeseriesmatrix a dtr norm) /\
  (forall v, slant_stack (moved d a) v = slant_stack a v) /\
  (forall g st, empty_from_array g (moved d a) st = empty_from_array g a st).
Proof.
  intros d a N. repeat split; intros; [apply offsets_moved|apply normalized_moved|apply spacing_moved|apply inside_moved|now apply flipped_moved|apply matrix_moved|apply slant_moved|apply empty_moved].
Qed.
Print Assumptions C128_observed.

(** The methods that change an array do the same to the moved one, and fail alike. *)
Theorem C128_operations : forall d a,
  (forall b e, array_trim (moved d a) b e = moved_result d (array_trim a b e)) /\
  (forall f, array_zero_pad (moved d a) f = moved_result d (array_zero_pad a f)) /\
  array_detrend (moved d a) = moved d (array_detrend a) /\
  (forall mn mx, trim_offsets (moved d a) mn mx = moved_result d (trim_offsets a mn mx)) /\
  (forall taper l l', mute (moved d a) taper (option_map (moved_line d) l) (option_map (moved_line d) l') = moved_result d (mute a taper l l')) /\
  (forall amp dt lo hi, xcorrelate (moved d a) amp dt lo hi = moved_result d (xcorrelate a amp dt lo hi)) /\
  copy_array (moved d a) = after (moved d) (copy_array a).
Proof.
  intros d a. repeat split; intros; [apply trim_moved|apply pad_moved|apply detrend_moved|apply trim_offsets_moved|apply mute_moved|apply xcorrelate_moved|apply copy_moved].
Qed.
Print Assumptions C128_operations.

(** A moved array is built from moved sensors, or refused alike. *)
Theorem C128_constructor : forall d l s, new_array (map (moved_sensor d) l) (moved_source d s) = after (moved d) (new_array l s).
Proof. exact new_array_moved. Qed.
Print Assumptions C128_constructor.

(** First breaks stay at their times, at the moved positions. *)
Theorem C128_first_breaks : forall d a thr,
  pick_on_threshold (moved d a) thr = after (fun r => (map (fun x => (x + d)%Qc) (fst r), snd r)) (pick_on_threshold a thr).
Proof. exact pick_moved. Qed.
Print Assumptions C128_first_breaks.

(** The signal-to-noise ratio of moved records is the same. *)
Theorem C128_snr : forall d spectrum s n fl fh pad o,
  snd (snr_from_arrays spectrum (moved d s) (moved d n) fl fh pad o) = snd (snr_from_arrays spectrum s n fl fh pad o).
Proof. intros d sp s n fl fh pad o. rewrite snr_moved. now destruct (snr_from_arrays sp s n fl fh pad o) as [[] ?]. Qed.
Print Assumptions C128_snr.

(** Reading a file with [d] added by map_x gives the moved array, or the same exception, for every format. *)
Theorem C128_map_x : forall (F K : Type) (read : option K -> F -> result (list trace)) d mx my kw f,
  from_files read (fun x => (mx x + d)%Qc) my kw [f] = after (moved d) (from_files read mx my kw [f]).
Proof. exact @from_files_shift. Qed.
Print Assumptions C128_map_x.

(** The registered transforms do not look at the absolute position if slantstack, phaseshift and fdbf do not; fk and empty need nothing more. *)
Theorem C128_registry : forall d g slantstack phaseshift fdbf,
  (forall a j, slantstack (moved d a) j = slantstack a j) -> (forall a j, phaseshift (moved d a) j = phaseshift a j) -> (forall a j, fdbf (moved d a) j = fdbf a j) ->
  Forall (fun c => blind d (snd c) (snd c)) (swprocess_transforms g slantstack phaseshift fdbf).
Proof. exact registered_blind. Qed.
Print Assumptions C128_registry.

(** One file with a moved map_x: the same settings afterwards, the same image and signal-to-noise ratio, and the moved records,
    or the same exception, whatever workflow the settings name. *)
Theorem C128_masw : forall d E user f x st, one_name f = Some x -> user_follows d (e_user E) user -> Forall (fun c => blind d (snd c) (snd c)) (e_transforms E) ->
  masw_run (moved_lab d E user) f st = (fst (masw_run E f st), after (moved_outcome d) (snd (masw_run E f st))).
Proof.
  intros d E user f x st O U B. destruct (masw_moved d E (moved_lab d E user) (moved_same d E user U B) f st (load_shift d E user f x O)) as (P & Q).
  - intros y _. now apply (load_shift d E user (Name y) y).
  - now rewrite <- P, <- Q, <- surjective_pairing.
Qed.
Print Assumptions C128_masw.

(** The frequency-domain workflow, for any list of files. *)
Theorem C128_frequency_domain : forall d E user f st, user_follows d (e_user E) user -> Forall (fun c => blind d (snd c) (snd c)) (e_transforms E) ->
  run_frequency_domain (moved_lab d E user) f st = (fst (run_frequency_domain E f st), after (moved_outcome d) (snd (run_frequency_domain E f st))).
Proof.
  intros d E user f st U B. destruct (frequency_moved d E (moved_lab d E user) (moved_same d E user U B) f st) as (P & Q).
  - intros y _. now apply (load_shift d E user (Name y) y).
  - now rewrite <- P, <- Q, <- surjective_pairing.
Qed.
Print Assumptions C128_frequency_domain.

(** Several files in the time domain, when what is read is moved. *)
Theorem C128_time_domain : forall d E E' f st, same_lab d E E' -> load E' f = after (moved d) (load E f) ->
  run_time_domain E' f st = (fst (run_time_domain E f st), after (moved_outcome d) (snd (run_time_domain E f st))).
Proof. intros d E E' f st S L. destruct (time_domain_moved d E E' S f st L) as (P & Q). now rewrite <- P, <- Q, <- surjective_pairing. Qed.
Print Assumptions C128_time_domain.
Theorem C128_xcorr : forall d E E' f k ch st, same_lab d E E' -> load E' f = after (moved d) (load E f) ->
  source_signal (K := unit) (fun _ => e_read E') ch k = source_signal (K := unit) (fun _ => e_read E) ch k ->
  run_xcorr E' f k ch st = (fst (run_xcorr E f k ch st), after (moved_outcome d) (snd (run_xcorr E f k ch st))).
Proof. intros d E E' f k ch st S L R. destruct (xcorr_moved d E E' S f k ch st L R) as (P & Q). now rewrite <- P, <- Q, <- surjective_pairing. Qed.
Print Assumptions C128_xcorr.

(** * Concrete cases *)
Local Definition q (a : Z) (b : positive) : Qc := Q2Qc (a # b).
Local Definition tr (src x : Z) (l : list Z) : trace :=
  mkTrace (map QcZ l) (q 1 1000) (Su (mkSu (Value 1%Z) (Value 1%Z) (Value src) (Value 0%Z) (Value x) (Value 0%Z) (Value 1%Z) (Value 0%Z))).
Local Definition file : list trace := [tr (-5) 0 [1; 5; 2; 8]%Z; tr (-5) 2 [3; 1; 4; 1]%Z].
Local Definition no_geomspace (_ _ : Qc) (_ : Z) : result (list Qc) := Err ValueError.
(** A transform whose power tells the offsets of the records. *)
Local Definition flat (a : array) (proc : json) : result (transform flt) :=
  bind (wt_of proc) (fun st => bind (empty_from_array no_geomspace a st) (fun e =>
  Ok (mkTransform 1 (wfrq e) (wvel e) (map (map (fun _ => Fin (List.fold_right Qcplus 0%Qc (offsets a)))) (power e)) (Scalar f1)))).
Local Definition lab : environment :=
  mkEnvironment (fun n => if String.eqb n "x" then Ok file else Err FileNotFoundError) (fun x => x) (fun y => y) (fun _ => Err IndexError)
    (fun _ n => repeat 1%Qc n) (fun l => l) (swprocess_transforms no_geomspace flat flat flat).
Local Definition settings (w : string) : json :=
  create_settings_dict (mkArguments (Some w) None None None None None None None None None None (Some (QcZ 550)) None None (Some 3%Z) None None None
    None None None None None None None None None).
Local Definition fine (r : json * result outcome) : bool := match snd r with Ok _ => true | Err _ => false end.
Local Definition first_receiver (r : json * result outcome) : option Qc :=
  match snd r with Ok o => match sensors (r_array o) with s :: _ => Some (sx s) | [] => None end | Err _ => None end.
Example C128_example : user_follows (QcZ 10) (e_user lab) (fun _ => Err IndexError) /\ Forall (fun c => blind (QcZ 10) (snd c) (snd c)) (e_transforms lab) /\
  fine (masw_run lab (Name "x") (settings "single")) = true /\ fine (run_frequency_domain lab (Names ["x"; "x"]) (settings "frequency-domain")) = true /\
  match first_receiver (masw_run (moved_lab (QcZ 10) lab (fun _ => Err IndexError)) (Name "x") (settings "single")) with Some x => Qceqb x (QcZ 10) | None => false end = true.
Proof.
  split; [intros a; reflexivity|]. split.
  - assert (F : forall a j, flat (moved (QcZ 10) a) j = flat a j).
    { intros a j. unfold flat. destruct (wt_of j); [|reflexivity]. cbn [bind]. rewrite empty_moved. destruct (empty_from_array _ a _); [|reflexivity]. cbn [bind]. now rewrite offsets_moved. }
    now apply registered_blind.
  - repeat split; vm_compute; reflexivity.
Qed.
(** Moving the receivers without the source does change the offsets, so the source has to move as well. *)
Example C128_source_matters : existsb (fun p => negb (Qceqb (fst p) (snd p)))
  (combine (offsets (mkArray (map (moved_sensor (QcZ 10)) [mkSensor (mkSeries [1%Qc] 1%Qc 1%Z 0%Qc 1%Z) 0%Qc 0%Qc 0%Qc]) (mkSource (QcZ (-5)) 0%Qc 0%Qc)))
     (offsets (mkArray [mkSensor (mkSeries [1%Qc] 1%Qc 1%Z 0%Qc 1%Z) 0%Qc 0%Qc 0%Qc] (mkSource (QcZ (-5)) 0%Qc 0%Qc)))) = true.
Proof. vm_compute. reflexivity. Qed.
