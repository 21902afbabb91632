(* Model of the transforms that use complex exponentials:
   /repo/swprocess/wavefieldtransforms.py PhaseShift (530-580), FDBF (583-712) and
   FK (715-723).  Numbers are Coq's real numbers (np.pi is the real pi, rounding is
   not modelled); time records, offsets, velocities and frequencies are the
   rationals of the other models, injected into the reals. *)
From Verif Require Export TransformModel.
From Coq Require Export Reals Qreals.
Local Open Scope string_scope.
Local Open Scope list_scope.
Local Open Scope R_scope.

(** * Complex numbers *)
Definition C : Type := R * R.
Definition RtoC (x : R) : C := (x, 0).
Definition C0 : C := (0, 0).
Definition C1 : C := (1, 0).
Definition Cadd (u v : C) : C := (fst u + fst v, snd u + snd v).
Definition Cmul (u v : C) : C := (fst u * fst v - snd u * snd v, fst u * snd v + snd u * fst v).
Definition Copp (u : C) : C := (- fst u, - snd u).
Definition Csub (u v : C) : C := Cadd u (Copp v).
Definition Cconj (u : C) : C := (fst u, - snd u).
Definition Cmod (u : C) : R := sqrt (fst u * fst u + snd u * snd u).
Definition cexp (theta : R) : C := (cos theta, sin theta).   (** np.exp(1j*theta) *)
Definition Csum (l : list C) : C := fold_right Cadd C0 l.
Definition Rsum (l : list R) : R := fold_right Rplus 0 l.
Definition toR (x : Qc) : R := Q2R (this x).

(** np.fft.fft of one record, bin [k]. *)
Definition dft (row : list Qc) (k : nat) : C :=
  Csum (map (fun n => Cmul (RtoC (toR (nth n row 0%Qc)))
                           (cexp (- (2 * PI * INR k * INR n / INR (List.length row)))))
            (range (List.length row))).

(** A real entry; None stands for NaN. *)
Definition cell : Type := option R.

(** * Phase shift *)

(** u / np.abs(u); 0/0 is NaN. *)
Definition unit_of (u : C) : option C :=
  if Req_EM_T (Cmod u) 0 then None else Some (Cmul u (RtoC (/ Cmod u))).
(** [inner], wavefieldtransforms.py:574-576, for one channel *)
Definition inner (v f x : R) (u : C) : option C :=
  option_map (Cmul (cexp (2 * PI / v * x * f))) (unit_of u).
(** 0.5*dx*(inner[:-1] + inner[1:]) for two neighbours *)
Definition panel (dx : R) (a b : option C) : option C :=
  match a, b with
  | Some u, Some v => Some (Cmul (RtoC (/ 2 * dx)) (Cadd u v))
  | _, _ => None
  end.
Fixpoint trapezoid (xs : list R) (l : list (option C)) : option C :=
  match xs, l with
  | x :: ((y :: _) as xs'), a :: ((b :: _) as l') =>
      match panel (y - x) a b, trapezoid xs' l' with
      | Some u, Some v => Some (Cadd u v)
      | _, _ => None
      end
  | _, _ => Some C0
  end.
(** One entry of the power array, wavefieldtransforms.py:569-578; a zero velocity
    makes every exponential NaN. *)
Definition phase_shift_cell (xs : list R) (spectrum : list C) (v f : R) : cell :=
  if Req_EM_T v 0 then match xs with _ :: _ :: _ => None | _ => Some 0 end
  else option_map Cmod (trapezoid xs (map2 (inner v f) xs spectrum)).
(** Frequencies shared by PhaseShift and FDBF, wavefieldtransforms.py:558-567, 611-618. *)
Definition kept (a : array) (fmin fmax : Qc) : result (list Z * list Qc) :=
  match sensors a with
  | [] => Err IndexError
  | s :: _ =>
      bind (internal_df (ser s)) (fun df =>
      let frqs := frequency_vector (nsamples (ser s)) df in
      bind (frequency_keep_ids frqs fmin fmax (multiple (ser s))) (fun ids =>
      bind (take frqs ids) (fun fs => Ok (ids, fs))))
  end.
(** PhaseShift.transform: power[i][j] for velocity i and frequency j. *)
Definition phase_shift (a : array) (vels : list Qc) (fmin fmax : Qc)
  : result (list Qc * list (list cell)) :=
  bind (kept a fmin fmax) (fun k =>
  let (tm, offs) := flipped a in
  let xs := map toR offs in
  Ok (snd k,
      map (fun v => map (fun jf => phase_shift_cell xs (map (fun r => dft r (Z.to_nat (fst jf))) tm)
                                                    (toR v) (toR (snd jf)))
                        (combine (fst k) (snd k))) vels)).

(** * Frequency-domain beamforming *)

(** One frequency of the spectra: channels x blocks.
    "invamp": each channel divided by the magnitude of its mean over the blocks,
    wavefieldtransforms.py:687-695; None if that is zero (infinities and NaN). *)
Definition invamp_row (row : list C) : option (list C) :=
  let mean := Cmul (Csum row) (RtoC (/ INR (List.length row))) in
  if Req_EM_T (Cmod mean) 0 then None
  else Some (map (fun u => Cmul u (RtoC (/ Cmod mean))) row).
Fixpoint all_some {A} (l : list (option A)) : option (list A) :=
  match l with
  | [] => Some []
  | Some a :: t => option_map (cons a) (all_some t)
  | None :: _ => None
  end.
Definition weighted_spectra (weighting : option string) (t : list (list C)) : option (list (list C)) :=
  match weighting with
  | Some w => if String.eqb w "invamp" then all_some (map invamp_row t) else Some t
  | None => Some t
  end.
(** scm for one frequency, wavefieldtransforms.py:703-710 *)
Definition sscm (t : list (list C)) : list (list C) :=
  map (fun ta => map (fun tc =>
         Cmul (Csum (map2 (fun u v => Cmul u (Cconj v)) ta tc)) (RtoC (/ INR (List.length ta)))) t) t.
(** the matrix [w], wavefieldtransforms.py:628-633 *)
Definition geometric (weighting : option string) (xs : list R) : list (list R) :=
  match weighting with
  | Some w => if String.eqb w "sqrt" then map (fun x => map (fun y => x * y) xs) xs
              else map (fun _ => map (fun _ => 1) xs) xs
  | None => map (fun _ => map (fun _ => 1) xs) xs
  end.
(** create_steering, wavefieldtransforms.py:636-642; [angle] stands for
    np.angle(special.j0(kx) + 1j*special.y0(kx)). *)
Definition steering_phase (angle : R -> R) (steering : option string) (kx : R) : R :=
  match steering with
  | Some s => if String.eqb s "cylindrical" then angle kx else kx
  | None => kx
  end.
(** steer^H W steer, wavefieldtransforms.py:652-653 *)
Definition quadratic (steer : list C) (m : list (list C)) : C :=
  let left := map (fun c => Csum (map2 (fun s row => Cmul (Cconj s) (nth c row C0)) steer m))
                  (range (List.length steer)) in
  Csum (map2 Cmul left steer).
Definition weigh (m : list (list C)) (w : list (list R)) : list (list C) :=
  map2 (map2 (fun u x => Cmul u (RtoC x))) m w.
Definition steer_vector (angle : R -> R) (steering : option string) (f v : R) (xs : list R) : list C :=
  map (fun x => cexp (- steering_phase angle steering (2 * PI * f / v * x))) xs.
(** One entry of the power array; [t] holds the spectra at this frequency. *)
Definition fdbf_cell (angle : R -> R) (weighting steering : option string)
           (xs : list R) (t : list (list C)) (v f : R) : option C :=
  if Req_EM_T v 0 then None
  else match weighted_spectra weighting t with
       | None => None
       | Some t' => Some (quadratic (steer_vector angle steering f v xs)
                                    (weigh (sscm t') (geometric weighting xs)))
       end.
(** FDBF.transform, wavefieldtransforms.py:586-656 (one block). *)
Definition fdbf (angle : R -> R) (weighting steering : option string)
           (a : array) (vels : list Qc) (fmin fmax : Qc)
  : result (list Qc * list (list (option C))) :=
  bind (kept a fmin fmax) (fun k =>
  let (tm, offs) := flipped a in
  let xs := map toR offs in
  Ok (snd k,
      map (fun v => map (fun jf => fdbf_cell angle weighting steering xs
                                     (map (fun r => [dft r (Z.to_nat (fst jf))]) tm) (toR v) (toR (snd jf)))
                        (combine (fst k) (snd k))) vels)).

(** FK.from_array, wavefieldtransforms.py:718-723: the caller's dictionary
    settings["fdbf-specific"] = (weighting, steering) is overwritten; KeyError if it
    is missing. *)
Definition fk_settings (specific : option (option string * option string))
  : option (option string * option string) * result (option string * option string) :=
  match specific with
  | None => (None, Err KeyError)
  | Some _ => (Some (Some "none", Some "plane"), Ok (Some "none", Some "plane"))
  end.
Definition fk (angle : R -> R) (specific : option (option string * option string))
           (a : array) (vels : list Qc) (fmin fmax : Qc)
  : option (option string * option string) * result (list Qc * list (list (option C))) :=
  match fk_settings specific with
  | (sp, Err e) => (sp, Err e)
  | (sp, Ok (w, s)) => (sp, fdbf angle w s a vels fmin fmax)
  end.
