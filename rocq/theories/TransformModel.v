(* Model of /repo/swprocess/wavefieldtransforms.py (frequency selection, trial
   velocities, normalisation, peak picking, stacking, slant stack) and of
   /repo/swprocess/snr.py.  The transforms that need complex exponentials are in
   BeamModel.v; plotting is in PlotModel.v and LimitsPlotModel.v. *)
From Verif Require Export ArrayModel Flt.
From Coq Require Export String.
Local Open Scope string_scope.
Local Open Scope nat_scope.
Local Open Scope list_scope.
Local Open Scope py_scope.

(** * Frequencies *)

(** range(lo, hi, step); a zero step raises ValueError. *)
Definition pyrange (lo hi step : Z) : result (list Z) :=
  let count a s := Z.to_nat ((a + s - 1) / s)%Z in
  if (step =? 0)%Z then Err ValueError
  else Ok (map (fun k => (lo + Z.of_nat k * step)%Z)
               (range (if (0 <? step)%Z then count (hi - lo)%Z step
                       else count (lo - hi)%Z (- step)%Z))).
(** _frequency_keep_ids, wavefieldtransforms.py:76-82. *)
Definition frequency_keep_ids (frqs : list Qc) (fmin fmax : Qc) (multiple : Z)
  : result (list Z) :=
  do lo <- argmin (map (fun f => Qcabs (f - fmin)%Qc) frqs);
  do hi <- argmin (map (fun f => Qcabs (f - fmax)%Qc) frqs);
  pyrange (Z.of_nat lo) (Z.of_nat hi + 1) multiple.
(** np.arange(n)*df *)
Definition frequency_vector (n : nat) (df : Qc) : list Qc := map (fun i => QcN i * df)%Qc (range n).
(** l[ids] *)
Definition take {A} (l : list A) (ids : list Z) : result (list A) := mapM (pyget l) ids.

(** * Trial velocities *)

(** np.linspace(start, stop, num) *)
Definition linspace (start stop : Qc) (num : Z) : result (list Qc) :=
  if (num <? 0)%Z then Err ValueError
  else if (num =? 1)%Z then Ok [start]
  else
    let n := Z.to_nat num in
    let step := ((stop - start) / QcZ (num - 1))%Qc in
    Ok (map (fun i => if i =? n - 1 then stop else (QcN i * step + start)%Qc) (range n)).
(** _create_vector, wavefieldtransforms.py:51-57; [geomspace] stands for np.geomspace. *)
Definition create_vector (geomspace : Qc -> Qc -> Z -> result (list Qc))
           (pmin pmax : Qc) (pn : Z) (pspace : string) : result (list Qc) :=
  if String.eqb pspace "linear" || String.eqb pspace "lin" then linspace pmin pmax pn
  else if String.eqb pspace "log" || String.eqb pspace "logarithmic" then geomspace pmin pmax pn
  else Err KeyError.

(** The entries of the processing settings used by all transforms. *)
Record wt_settings : Type := mkWt {
  s_fmin : Qc; s_fmax : Qc; s_vmin : Qc; s_vmax : Qc; s_nvel : Z; s_vspace : string }.

(** * Transform objects *)

(** self._to_abs: 1., or a maximum over the image, or one maximum per column. *)
Inductive factor : Type := Scalar (x : flt) | PerColumn (l : list flt).
(** AbstractWavefieldTransform, wavefieldtransforms.py:36-49; [power] has one row
    per velocity.  [K] is the type of the entries of the power array. *)
Record transform (K : Type) : Type := mkTransform {
  wn : Z; wfrq : list Qc; wvel : list Qc; power : list (list K); to_abs : factor }.
Arguments mkTransform {K}. Arguments wn {K}. Arguments wfrq {K}. Arguments wvel {K}.
Arguments power {K}. Arguments to_abs {K}.
Definition new_transform {K} (frqs vels : list Qc) (p : list (list K)) : transform K :=
  mkTransform 1 frqs vels p (Scalar f1).
(** EmptyWavefieldTransform.__init__, wavefieldtransforms.py:336-338. *)
Definition new_empty {K} (frqs vels : list Qc) (p : list (list K)) : transform K :=
  mkTransform 0 frqs vels p (Scalar f1).
(** EmptyWavefieldTransform.from_array, wavefieldtransforms.py:340-357. *)
Definition empty_from_array (geomspace : Qc -> Qc -> Z -> result (list Qc))
           (a : array) (st : wt_settings) : result (transform flt) :=
  match sensors a with
  | [] => Err IndexError
  | s :: _ =>
      do df <- internal_df (ser s);
      let frqs := frequency_vector (nsamples (ser s)) df in
      do ids <- frequency_keep_ids frqs (s_fmin st) (s_fmax st) (multiple (ser s));
      do fs <- take frqs ids;
      do vs <- create_vector geomspace (s_vmin st) (s_vmax st) (s_nvel st) (s_vspace st);
      Ok (new_empty fs vs (repeat (repeat f0 (List.length ids)) (Z.to_nat (s_nvel st))))
  end.

(** ** Normalisation *)
Section Normalize.
  (** The entries: np.abs, product with a real number, real numbers among the
      entries, and the order used by np.argmax ([kbetter x y]: x replaces the
      best so far y). *)
  Context {K : Type} (kabs : K -> flt) (kmul : K -> flt -> K) (kreal : flt -> K)
          (kbetter : K -> K -> bool).
  Definition scale (p : list (list K)) (f : factor) : list (list K) :=
    match f with
    | Scalar x => map (map (fun k => kmul k x)) p
    | PerColumn l => map (fun r => map2 kmul r l) p
    end.
  Definition magnitudes (p : list (list K)) : list (list flt) := map (map kabs) p.
  Definition reals (m : list (list flt)) : list (list K) := map (map kreal) m.
  (** np.max(m, axis=0); without rows np.max raises ValueError (simplified: without rows
      and columns numpy returns an empty array). *)
  Definition column_max (m : list (list flt)) : result (list flt) :=
    match m with
    | [] => Err ValueError
    | r :: _ => mapM (fun j => fmax (map (fun r' => nth j r' NaN) m)) (range (List.length r))
    end.
  Definition set_power (w : transform K) (p : list (list K)) (f : factor) : transform K :=
    mkTransform (wn w) (wfrq w) (wvel w) p f.
  (** normalize, wavefieldtransforms.py:84-111.  The in-place product at line 100
      stays when the rest raises. *)
  Definition normalize (w : transform K) (by_ : string) : transform K * result unit :=
    let p := scale (power w) (to_abs w) in
    let m := magnitudes p in
    if String.eqb by_ "none" then (set_power w (reals m) (Scalar f1), Ok tt)
    else if String.eqb by_ "absolute-maximum" then
      match fmax (List.concat m) with
      | Err e => (set_power w p (to_abs w), Err e)
      | Ok x => (set_power w (reals (map (map (fun y => fdiv y x)) m)) (Scalar x), Ok tt)
      end
    else if String.eqb by_ "frequency-maximum" then
      match column_max m with
      | Err e => (set_power w p (to_abs w), Err e)
      | Ok l => (set_power w (reals (map (fun r => map2 fdiv r l) m)) (PerColumn l), Ok tt)
      end
    else (set_power w p (to_abs w), Err KeyError).
  Definition normalize_all (w : transform K) (l : list string) : transform K :=
    fold_left (fun w by_ => fst (normalize w by_)) l w.

  (** find_peak_power, wavefieldtransforms.py:113-138. *)
  Definition find_peak_power (w : transform K) (by_ : string) : result (list Qc) :=
    if String.eqb by_ "frequency-maximum" then
      match power w with
      | [] => Err ValueError
      | r :: _ =>
          mapM (fun j =>
                  do i <- argbest kbetter (flat_map (fun r' => match nth_error r' j with
                                                               | Some k => [k] | None => [] end)
                                                    (power w));
                  pyget (wvel w) (Z.of_nat i)) (range (List.length r))
      end
    else Err NotImplementedError.
End Normalize.
(** np.argmax of real numbers: the first NaN, or the first maximum. *)
Definition better_real (x y : flt) : bool := negb (is_nan y) && (is_nan x || flt_lt y x).
(** Real power arrays. *)
Definition normalize_real := normalize (K := flt) fabs fmul (fun x => x).
Definition find_peak_real := find_peak_power (K := flt) better_real.

(** ** Stacking *)

(** What the argument of stack() offers: an object may lack .power or .n. *)
Record stackable : Type := mkStackable { o_power : option (list (list flt)); o_n : option Z }.
Definition of_transform (w : transform flt) : stackable := mkStackable (Some (power w)) (Some (wn w)).
(** numpy broadcasting: the number of rows of a two-dimensional array is its length, the
    number of columns the length of its rows (simplification: zero without rows); of two axes
    the one of length one is repeated. *)
Definition width {A} (p : list (list A)) : nat := match p with [] => 0 | r :: _ => List.length r end.
Definition common (a b : nat) : nat := if a =? 1 then b else a.
Definition lengthened {A} (n : nat) (l : list A) : result (list A) :=
  if List.length l =? n then Ok l else match l with [x] => Ok (repeat x n) | _ => Err ValueError end.
Definition spread {A} (nr nc : nat) (p : list (list A)) : result (list (list A)) :=
  do rows <- mapM (lengthened nc) p; lengthened nr rows.
(** EmptyWavefieldTransform.stack, wavefieldtransforms.py:359-366.  A complex
    entry stands for two real ones (real and imaginary part are treated alike).
    Arrays that cannot be broadcast together are refused by numpy with ValueError. *)
Definition stack (w : transform flt) (o : stackable) : transform flt * result unit :=
  match o_power o, o_n o with
  | Some q, Some m =>
      let nr := common (List.length (power w)) (List.length q) in
      let nc := common (width (power w)) (width q) in
      match spread nr nc (power w), spread nr nc q with
      | Ok own, Ok other =>
          let times n := map (map (fun x => fmul x (Fin (QcZ n)))) in
          let s := map2 (map2 fadd) (times (wn w) own) (times m other) in
          let p := map (map (fun x => fdiv x (Fin (QcZ (wn w + m))))) s in
          (mkTransform (wn w + m) (wfrq w) (wvel w) p (to_abs w), Ok tt)
      | _, _ => (w, Err ValueError)
      end
  | _, _ => (w, Err AttributeError)
  end.
Fixpoint stack_many (w : transform flt) (os : list stackable) : transform flt * result unit :=
  match os with
  | [] => (w, Ok tt)
  | o :: t => match stack w o with
              | (w', Ok _) => stack_many w' t
              | (w', Err e) => (w', Err e)
              end
  end.

(** * Slant stack *)

Definition qmin (l : list Qc) : result Qc :=
  match l with [] => Err ValueError | a :: t => Ok (lmin a t) end.
Definition qmax (l : list Qc) : result Qc :=
  match l with [] => Err ValueError | a :: t => Ok (lmax a t) end.
(** amplitudes of one channel, wavefieldtransforms.py:481-482 *)
Definition interpolate (row : list Qc) (delta : Qc) (cols : list Z) : result (list Qc) :=
  mapM (fun c => do a <- pyget row c; do b <- pyget row (c + 1)%Z;
                 Ok (a * (1 - delta) + b * delta)%Qc) cols.
(** One pass of the loop, wavefieldtransforms.py:476-489: new column indices, new
    lower indices and one row of the result. *)
Definition slant_step (tm : list (list Qc)) (diff : list Qc) (pre : list Qc) (ntaus : nat)
           (cols : list (list Z)) (previous : list Z) (v : Qc)
  : result (list (list Z) * list Z * list Qc) :=
  let fi := map (fun p => p / v)%Qc pre in
  let lower := map trunc fi in
  let delta := map2 (fun f l => f - QcZ l)%Qc fi lower in
  let cols' := map2 (fun cs d => map (fun c => c + d)%Z cs) cols (map2 Z.sub lower previous) in
  do amps <- mapM (fun x => interpolate (fst (fst x)) (snd (fst x)) (snd x))
                  (combine (combine tm delta) cols');
  let integral := map2 (fun d ab => map2 (fun x y => Q2Qc (1 # 2) * d * (x + y))%Qc (fst ab) (snd ab))
                       diff (combine (tl amps) amps) in
  Ok (cols', lower, map (fun t => Qcsum (map (fun r => nth t r 0%Qc) integral)) (range ntaus)).
Fixpoint slant_loop (tm : list (list Qc)) (diff pre : list Qc) (ntaus : nat)
         (cols : list (list Z)) (previous : list Z) (vels : list Qc) : result (list (list Qc)) :=
  match vels with
  | [] => Ok []
  | v :: t =>
      do r <- slant_step tm diff pre ntaus cols previous v;
      let '(cols', lower, row) := r in
      do rest <- slant_loop tm diff pre ntaus cols' lower t;
      Ok (row :: rest)
  end.
(** slant_stack, wavefieldtransforms.py:441-492.  A zero velocity or time step
    makes an infinity that int() refuses (OverflowError). *)
Definition slant_stack_of (tm : list (list Qc)) (position : list Qc) (dt : Qc) (vels : list Qc)
  : result (list (list Qc)) :=
  do pm <- qmin position;
  let pos := map (fun x => x - pm)%Qc position in
  if existsb (fun v => Qceqb v 0%Qc) vels || Qceqb dt 0%Qc then Err OverflowError else
  do far <- qmax pos;
  do slow <- qmax (map (fun v => 1 / v)%Qc vels);
  let npts := List.length (nth 0 tm []) in
  let ntaus := (Z.of_nat npts - trunc (far * slow / dt)%Qc - 1)%Z in
  if (ntaus <? 0)%Z then Err ValueError else
  let nt := Z.to_nat ntaus in
  slant_loop tm (diffs pos) (map (fun x => x / dt)%Qc pos) nt
             (map (fun _ => map Z.of_nat (range nt)) pos) (map (fun _ => 0%Z) pos) vels.
Definition slant_stack (a : array) (vels : list Qc) : result (list (list Qc)) :=
  match sensors a with
  | [] => Err ValueError
  | s :: _ => let (tm, offs) := flipped a in slant_stack_of tm offs (dt (ser s)) vels
  end.

(** * Signal-to-noise ratio *)

(** np.mean(np.abs(np.fft.fft(m)[:, ids]), axis=0); [spectrum] gives np.abs of the
    FFT of one record. *)
Definition mean_spectrum (spectrum : list Qc -> list Qc) (m : list (list Qc)) (ids : list Z)
  : result (list Qc) :=
  do rows <- mapM (fun r => take (spectrum r) ids) m;
  Ok (map (fun j => Qcsum (map (fun r => nth j r 0%Qc) rows) / QcN (List.length rows))%Qc
          (range (List.length ids))).
Definition rows_of (a : array) : list (list Qc) := map (fun s => amp (ser s)) (sensors a).
(** zero_pad(df) where df may be None: comparing None with 0 raises TypeError
    after `_multiple` of the first sensor has been reset. *)
Definition array_zero_pad_opt (a : array) (df : option Qc) : array * result unit :=
  match df with
  | Some d => array_zero_pad a d
  | None => match sensors a with
            | [] => (a, Ok tt)
            | s :: t => (set_sensors a (set_ser s (set_multiple (ser s) 1) :: t), Err TypeError)
            end
  end.
(** SignaltoNoiseRatio.from_array1ds after padding, snr.py:40-56. *)
Definition snr_core (spectrum : list Qc -> list Qc) (signal noise : array) (fmin fmax : Qc)
  : result (list Qc * list flt) :=
  match sensors noise, sensors signal with
  | n :: _, s :: _ =>
      if negb (nsamples (ser n) =? nsamples (ser s)) then Err IndexError else
      do df <- user_df (ser n);
      let frqs := frequency_vector (nsamples (ser n)) df in
      do ids <- frequency_keep_ids frqs fmin fmax (multiple (ser n));
      do fs <- take frqs ids;
      do sp <- mean_spectrum spectrum (rows_of signal) ids;
      do np <- mean_spectrum spectrum (rows_of noise) ids;
      Ok (fs, map2 (fun x y => fdiv (Fin x) (Fin y)) sp np)
  | _, _ => Err IndexError
  end.
(** from_array1ds, snr.py:30-56: (signal, noise) afterwards and the outcome. *)
Definition snr_from_arrays (spectrum : list Qc -> list Qc) (signal noise : array) (fmin fmax : Qc)
           (pad : bool) (df : option Qc) : (array * array) * result (list Qc * list flt) :=
  if pad then
    match array_zero_pad_opt noise df with
    | (n', Err e) => ((signal, n'), Err e)
    | (n', Ok _) =>
        match array_zero_pad_opt signal df with
        | (s', Err e) => ((s', n'), Err e)
        | (s', Ok _) => ((s', n'), snr_core spectrum s' n' fmin fmax)
        end
    end
  else ((signal, noise), snr_core spectrum signal noise fmin fmax).
