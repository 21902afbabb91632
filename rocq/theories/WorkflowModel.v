(* Model of /repo/swprocess/masw.py, /repo/swprocess/maswworkflows.py and
   /repo/swprocess/register.py. *)
From Verif Require Export HeaderModel TransformModel.
Local Open Scope string_scope.
Local Open Scope nat_scope.
Local Open Scope list_scope.
Local Open Scope py_scope.

(** * Settings *)

(** The values in a settings dict. *)
Inductive json : Type :=
| JNull | JBool (b : bool) | JNum (x : flt) | JInt (z : Z) | JStr (s : string)
| JDict (d : list (string * json)).
Fixpoint lookup {A} (k : string) (d : list (string * A)) : option A :=
  match d with
  | [] => None
  | (k', v) :: t => if String.eqb k k' then Some v else lookup k t
  end.
(** d[k] = v: an existing key keeps its place. *)
Fixpoint update {A} (k : string) (v : A) (d : list (string * A)) : list (string * A) :=
  match d with
  | [] => [(k, v)]
  | (k', w) :: t => if String.eqb k k' then (k', v) :: t else (k', w) :: update k v t
  end.
(** j[k] *)
Definition item (j : json) (k : string) : result json :=
  match j with
  | JDict d => match lookup k d with Some v => Ok v | None => Err KeyError end
  | _ => Err TypeError
  end.
(** j.get(k) *)
Definition dget (j : json) (k : string) : result json :=
  match j with
  | JDict d => Ok (match lookup k d with Some v => v | None => JNull end)
  | _ => Err AttributeError
  end.
(** j[k] = v *)
Definition set_item (j : json) (k : string) (v : json) : result json :=
  match j with JDict d => Ok (JDict (update k v d)) | _ => Err TypeError end.
(** bool(j) *)
Definition truth (j : json) : bool :=
  match j with
  | JNull => false | JBool b => b | JInt z => negb (z =? 0)%Z
  | JNum (Fin q) => negb (Qceqb q 0%Qc) | JNum _ => true
  | JStr s => negb (String.eqb s "") | JDict d => match d with [] => false | _ => true end
  end.
(** A setting used as a number; True and False count as one and zero.  Simplification: only finite numbers, except for the
    offset limits ([real]); everything else counts as a TypeError. *)
Definition num (j : json) : result Qc :=
  match j with JNum (Fin q) => Ok q | JInt z => Ok (QcZ z) | JBool b => Ok (QcZ (Z.b2z b)) | _ => Err TypeError end.
Definition real (j : json) : result flt :=
  match j with JNum x => Ok x | JInt z => Ok (Fin (QcZ z)) | JBool b => Ok (Fin (QcZ (Z.b2z b))) | _ => Err TypeError end.
Definition int (j : json) : result Z := match j with JInt z => Ok z | JBool b => Ok (Z.b2z b) | _ => Err TypeError end.
Definition str (j : json) : result string := match j with JStr s => Ok s | _ => Err TypeError end.
Definition opt_num (j : json) : result (option Qc) :=
  match j with JNull => Ok None | _ => do q <- num j; Ok (Some q) end.

(** ** create_settings_dict, masw.py:89-155 *)

(** The arguments, None where omitted.  Simplification: they have the types that
    str(), bool(), float() and int() convert to. *)
Record arguments : Type := mkArguments {
  a_workflow : option string; a_trim : option bool; a_trim_begin : option Qc; a_trim_end : option Qc;
  a_mute : option bool; a_method : option string; a_window_kwargs : option (list (string * json));
  a_pad : option bool; a_df : option Qc; a_transform : option string;
  a_fmin : option Qc; a_fmax : option Qc; a_vmin : option Qc; a_vmax : option Qc; a_nvel : option Z;
  a_vspace : option string; a_weighting : option string; a_steering : option string;
  a_snr : option bool; a_noise_begin : option Qc; a_noise_end : option Qc;
  a_signal_begin : option Qc; a_signal_end : option Qc;
  a_pad_snr : option bool; a_df_snr : option Qc; a_min_offset : option flt; a_max_offset : option flt }.
Definition given {A} (default : A) (o : option A) : A := match o with Some a => a | None => default end.
Definition jnum (default : Qc) (o : option Qc) : json := JNum (Fin (given default o)).
Definition jstr (default : string) (o : option string) : json := JStr (given default o).
Definition jbool (default : bool) (o : option bool) : json := JBool (given default o).
Definition create_settings_dict (p : arguments) : json :=
  JDict [
    ("workflow", jstr "time-domain" (a_workflow p));
    ("pre-processing", JDict [
       ("trim", JDict [("apply", jbool false (a_trim p)); ("begin", jnum 0%Qc (a_trim_begin p));
                       ("end", jnum 1%Qc (a_trim_end p))]);
       ("mute", JDict [("apply", jbool false (a_mute p)); ("method", jstr "interactive" (a_method p));
                       ("window_kwargs", JDict (given [] (a_window_kwargs p)))]);
       ("pad", JDict [("apply", jbool false (a_pad p)); ("df", jnum 1%Qc (a_df p))]);
       ("offsets", JDict [("min", JNum (given f0 (a_min_offset p)));
                          ("max", JNum (given PInf (a_max_offset p)))])]);
    ("processing", JDict [
       ("transform", jstr "fdbf" (a_transform p));
       ("fmin", jnum (QcZ 5) (a_fmin p)); ("fmax", jnum (QcZ 100) (a_fmax p));
       ("vmin", jnum (QcZ 100) (a_vmin p)); ("vmax", jnum (QcZ 1000) (a_vmax p));
       ("nvel", JInt (given 200%Z (a_nvel p))); ("vspace", jstr "linear" (a_vspace p));
       ("fdbf-specific", JDict [("weighting", jstr "sqrt" (a_weighting p));
                                ("steering", jstr "cylindrical" (a_steering p))])]);
    ("signal-to-noise", JDict [
       ("perform", jbool false (a_snr p));
       ("noise", JDict [("begin", jnum (Q2Qc (-1 # 2)) (a_noise_begin p)); ("end", jnum 0%Qc (a_noise_end p))]);
       ("signal", JDict [("begin", jnum 0%Qc (a_signal_begin p));
                         ("end", jnum (Q2Qc (1 # 2)) (a_signal_end p))]);
       ("pad", JDict [("apply", jbool true (a_pad_snr p)); ("df", jnum 1%Qc (a_df_snr p))])])].

(** * Registries, register.py:25-57 *)

(** One dict per registry class. *)
Record registries (C : Type) : Type := mkRegistries { transforms : list (string * C); workflows : list (string * C) }.
Arguments mkRegistries {C}. Arguments transforms {C}. Arguments workflows {C}.
Inductive which : Set := OfTransforms | OfWorkflows.
(** @Registry.register(name), register.py:27-38 *)
Definition register {C} (w : which) (name : string) (c : C) (r : registries C) : registries C :=
  match w with
  | OfTransforms => mkRegistries (update name c (transforms r)) (workflows r)
  | OfWorkflows => mkRegistries (transforms r) (update name c (workflows r))
  end.
(** create_class, register.py:45-47 *)
Definition create_class {C} (w : which) (name : string) (r : registries C) : result C :=
  match lookup name (match w with OfTransforms => transforms r | OfWorkflows => workflows r end) with
  | Some c => Ok c
  | None => Err KeyError
  end.
(** create_instance, register.py:40-43; calling the class is [call]. *)
Definition create_instance {C A O} (call : C -> A -> result O) (w : which) (name : string) (args : A)
           (r : registries C) : result O :=
  do c <- create_class w name r; call c args.

(** * Workflows *)

(** from_array of a transform class: may change the settings["processing"] dict it gets. *)
Definition transform_class : Type := array -> json -> json * result (transform flt).
(** What a workflow uses from outside. *)
Record environment : Type := mkEnvironment {
  e_read : string -> result (list trace);          (** obspy.read *)
  e_mx : Qc -> Qc; e_my : Qc -> Qc;                (** map_x, map_y *)
  e_user : array -> result (line * line);          (** the points picked in interactive_mute *)
  e_taper : json -> nat -> list Qc;                (** scipy.signal.windows.tukey(M, **kwargs) *)
  e_spectrum : list Qc -> list Qc;                 (** np.abs(np.fft.fft(.)) *)
  e_transforms : list (string * transform_class) }. (** WavefieldTransformRegistry *)
(** fnames: one name or a list of names. *)
Inductive names : Type := Name (s : string) | Names (l : list string).

(** The attributes of a workflow object, maswworkflows.py:33-52. *)
Record wf : Type := mkWf {
  w_array : array; w_lines : option (line * line); w_noise : option array; w_signal : option array;
  w_snr : option (list Qc * list flt) }.
Definition set_array (w : wf) (a : array) : wf := mkWf a (w_lines w) (w_noise w) (w_signal w) (w_snr w).
Definition set_lines (w : wf) (l : line * line) : wf := mkWf (w_array w) (Some l) (w_noise w) (w_signal w) (w_snr w).
Definition set_noise (w : wf) (a : array) : wf := mkWf (w_array w) (w_lines w) (Some a) (w_signal w) (w_snr w).
Definition set_signal (w : wf) (a : array) : wf := mkWf (w_array w) (w_lines w) (w_noise w) (Some a) (w_snr w).
Definition set_snr (w : wf) (s n : array) (r : list Qc * list flt) : wf :=
  mkWf (w_array w) (w_lines w) (Some n) (Some s) (Some r).
Definition started (a : array) : wf := mkWf a None None None None.
(** The outcome of a method that changes an array: the array, or the exception. *)
Definition changed (r : array * result unit) : result array :=
  match r with (a, Ok _) => Ok a | (_, Err e) => Err e end.
Definition on_array (w : wf) (r : array * result unit) : result wf :=
  do a <- changed r; Ok (set_array w a).

(** check, maswworkflows.py:54-57 *)
Definition check (w : wf) : result wf :=
  if source_inside (w_array w) then Err ValueError else Ok w.
(** trim_offsets of array1d.py:192-219 with limits that may be infinite. *)
Fixpoint offsets_loop (mn mx : flt) (l : list (Qc * sensor)) : list sensor :=
  match l with
  | [] => []
  | (o, s) :: t =>
      let here := if flt_lt mn (Fin o) && flt_lt (Fin o) mx then [s] else [] in
      if flt_lt mx (Fin o) then here else here ++ offsets_loop mn mx t
  end.
Definition limit_offsets (a : array) (mn mx : flt) : array * result unit :=
  match offsets_loop mn mx (combine (offsets a) (sensors a)) with
  | [] => (a, Err ValueError)
  | l => (set_sensors a l, Ok tt)
  end.
(** maswworkflows.py:59-62 *)
Definition offsets_step (st : json) (w : wf) : result wf :=
  do pp <- item st "pre-processing"; do o <- item pp "offsets";
  do jmn <- item o "min"; do jmx <- item o "max"; do mn <- real jmn; do mx <- real jmx;
  on_array w (limit_offsets (w_array w) mn mx).
(** maswworkflows.py:64-67 *)
Definition detrend_step (w : wf) : result wf := Ok (set_array w (array_detrend (w_array w))).
(** A copy of the array trimmed to the times in [d], maswworkflows.py:74-75, 105-106 *)
Definition window_of (d : json) (a : array) : result array :=
  do c <- copy_array a;
  do jb <- item d "begin"; do je <- item d "end"; do b <- num jb; do e <- num je;
  changed (array_trim c b e).
(** select_noise, maswworkflows.py:69-75 *)
Definition noise_step (st : json) (w : wf) : result wf :=
  do snr <- item st "signal-to-noise"; do p <- item snr "perform";
  match truth p, w_noise w with
  | true, None => do d <- item snr "noise"; do n <- window_of d (w_array w); Ok (set_noise w n)
  | _, _ => Ok w
  end.
(** trim_time, maswworkflows.py:77-81 *)
Definition time_step (st : json) (w : wf) : result wf :=
  do pp <- item st "pre-processing"; do t <- item pp "trim"; do ap <- item t "apply";
  if truth ap then
    do jb <- item t "begin"; do je <- item t "end"; do b <- num jb; do e <- num je;
    on_array w (array_trim (w_array w) b e)
  else Ok w.
(** array1d.py:587-589: the default window *)
Definition window_kwargs_or_default (k : json) : json :=
  match k with JNull => JDict [("alpha", JNum (Fin (Q2Qc (1 # 5))))] | _ => k end.
(** mute, maswworkflows.py:83-98.  signal_start and signal_end are set together. *)
Definition mute_step (E : environment) (st : json) (w : wf) : result wf :=
  do pp <- item st "pre-processing"; do m <- item pp "mute"; do ap <- item m "apply";
  if truth ap then
    match w_lines w with
    | None =>
        do method <- item m "method";
        match method with
        | JStr "interactive" =>
            do l <- e_user E (w_array w);
            do a <- changed (mute (w_array w) (e_taper E (window_kwargs_or_default JNull)) (Some (fst l)) (Some (snd l)));
            Ok (set_lines (set_array w a) l)
        | _ => Err KeyError
        end
    | Some l =>
        do k <- dget m "window kwargs";
        on_array w (mute (w_array w) (e_taper E (window_kwargs_or_default k)) (Some (fst l)) (Some (snd l)))
    end
  else Ok w.
(** select_signal, maswworkflows.py:100-106 *)
Definition signal_step (st : json) (w : wf) : result wf :=
  do snr <- item st "signal-to-noise"; do p <- item snr "perform";
  match truth p, w_signal w with
  | true, None => do d <- item snr "signal"; do n <- window_of d (w_array w); Ok (set_signal w n)
  | _, _ => Ok w
  end.
(** calculate_snr, maswworkflows.py:108-115; without noise or signal, noise[0] of None
    raises AttributeError (padding) or TypeError. *)
Definition snr_step (E : environment) (st : json) (w : wf) : result wf :=
  do snr <- item st "signal-to-noise"; do pr <- item st "processing"; do p <- item snr "perform";
  if truth p then
    do jl <- item pr "fmin"; do jh <- item pr "fmax"; do pad <- item snr "pad"; do ap <- item pad "apply"; do jd <- item pad "df";
    do fl <- num jl; do fh <- num jh; do df <- opt_num jd;
    match w_signal w, w_noise w with
    | Some s, Some n =>
        match snr_from_arrays (e_spectrum E) s n fl fh (truth ap) df with
        | ((s', n'), Ok r) => Ok (set_snr w s' n' r)
        | (_, Err e) => Err e
        end
    | _, _ => Err (if truth ap then AttributeError else TypeError)
    end
  else Ok w.
(** pad, maswworkflows.py:117-121 *)
Definition pad_step (st : json) (w : wf) : result wf :=
  do pp <- item st "pre-processing"; do pad <- item pp "pad"; do ap <- item pad "apply";
  if truth ap then do jd <- item pad "df"; do d <- num jd; on_array w (array_zero_pad (w_array w) d) else Ok w.

(** What a workflow returns: the transform with its attributes array, snr and snr_frequencies. *)
Record outcome : Type := mkOutcome {
  r_transform : transform flt; r_array : array; r_snr : option (list Qc * list flt) }.

(** Array1D.from_files(fnames), array1d.py:643-651: a single name is a list of one name. *)
Definition load (E : environment) (f : names) : result array :=
  from_files (K := unit) (fun _ => e_read E) (e_mx E) (e_my E) None
             (match f with Name s => [s] | Names l => l end).
(** self.settings["processing"] was handed to a transform that left [proc]. *)
Definition put_processing (st proc : json) : json :=
  match set_item st "processing" proc with Ok st' => st' | Err _ => st end.
(** self.snr.snr and self.snr.frequencies if perform, maswworkflows.py:151-153 *)
Definition reported_snr (st : json) (w : wf) : result (option (list Qc * list flt)) :=
  do snr <- item st "signal-to-noise"; do p <- item snr "perform";
  if truth p then match w_snr w with Some r => Ok (Some r) | None => Err AttributeError end else Ok None.
(** maswworkflows.py:145-154, 230-240: the last part of run, after the pre-processing. *)
Definition finish (E : environment) (st : json) (w : wf) : json * result outcome :=
  match (do proc <- item st "processing"; do jn <- item proc "transform"; do n <- str jn;
         match lookup n (e_transforms E) with Some c => Ok (proc, c) | None => Err KeyError end) with
  | Err e => (st, Err e)
  | Ok (proc, c) =>
      let (proc', r) := c (w_array w) proc in
      let st' := put_processing st proc' in
      (st', do t <- r; do s <- reported_snr st' w; Ok (mkOutcome t (w_array w) s))
  end.
Definition or_stop {A B} (st : json) (r : result A) (f : A -> json * result B) : json * result B :=
  match r with Ok a => f a | Err e => (st, Err e) end.

(** TimeDomainWorkflow.run, maswworkflows.py:135-154 *)
Definition run_time_domain (E : environment) (f : names) (st : json) : json * result outcome :=
  or_stop st
    (do a <- load E f;
     do w <- check (started a); do w <- offsets_step st w; do w <- detrend_step w;
     do w <- noise_step st w; do w <- time_step st w; do w <- mute_step E st w;
     do w <- signal_step st w; do w <- snr_step E st w; pad_step st w)
    (finish E st).
(** SingleMaswWorkflow.run, maswworkflows.py:161-166 *)
Definition run_single (E : environment) (f : names) (st : json) : json * result outcome :=
  match f with
  | Name _ | Names [_] => run_time_domain E f st
  | Names (s :: _) => run_time_domain E (Name s) st
  | Names [] => (st, Err IndexError)
  end.
(** max(sensor.time) *)
Definition last_time (s : series) : result Qc := qmax (time s).
(** TimeDomainXcorrMaswWorkflow.run, maswworkflows.py:215-240.  [fsrc] and [ch] are
    fnames_src and src_channel; the source signal is a sigpropy time series that starts
    at time zero. *)
Definition run_xcorr (E : environment) (f : names) (fsrc : list string) (ch : Z) (st : json) : json * result outcome :=
  or_stop st
    (do a <- load E f;
     do sig <- source_signal (K := unit) (fun _ => e_read E) ch fsrc;
     do a <- new_array (sensors a) (src a);
     do s0 <- pyget (sensors a) 0; do tm <- last_time (ser s0);
     do a <- changed (array_trim a 0%Qc tm);
     let signal := mkSeries (fst sig) (snd sig) 1 0%Qc 1 in
     do ts <- last_time signal;
     do signal <- (match base_trim signal 0%Qc ts with (s, Ok _) => Ok s | (_, Err e) => Err e end);
     do w <- check (started a); do w <- offsets_step st w; do w <- detrend_step w;
     do w <- noise_step st w; do w <- time_step st w; do w <- mute_step E st w;
     do w <- signal_step st w; do w <- snr_step E st w;
     do pr <- item st "processing"; do jl <- item pr "vmin"; do jh <- item pr "vmax";
     do vl <- num jl; do vh <- num jh;
     do w <- on_array w (xcorrelate (w_array w) (amp signal) (dt signal) vl vh);
     pad_step st w)
    (finish E st).

(** ** Stacking in the frequency domain, maswworkflows.py:261-305 *)

(** `self.fnames[0]` and `for fname in self.fnames`: a str yields its characters. *)
Definition iterate (f : names) : list string :=
  match f with Name s => map (fun c => String c EmptyString) (list_ascii_of_string s) | Names l => l end.
(** maswworkflows.py:262-272 *)
Definition example_array (E : environment) (st : json) (fname : string) : result array :=
  do a <- load E (Name fname);
  let a := array_detrend a in
  do pp <- item st "pre-processing"; do t <- item pp "trim"; do ap <- item t "apply";
  do a <- (if truth ap then
             do jb <- item t "begin"; do je <- item t "end"; do b <- num jb; do e <- num je;
             changed (array_trim a b e)
           else Ok a);
  do p <- item pp "pad"; do ap <- item p "apply";
  if truth ap then do jd <- item p "df"; do d <- num jd; changed (array_zero_pad a d) else Ok a.
(** One file, maswworkflows.py:280-298, without the transform. *)
Definition one_file (E : environment) (st : json) (example : array) (w : wf) (fname : string) : result wf :=
  do a <- load E (Name fname);
  if negb (array_similar a example) then Err ValueError else
  do w <- check (set_array w a); do w <- offsets_step st w; do w <- detrend_step w;
  do w <- noise_step st w; do w <- time_step st w; do w <- mute_step E st w;
  do w <- signal_step st w; pad_step st w.
(** The loop: [proc] is settings["processing"], changed by the transforms. *)
Fixpoint file_loop (E : environment) (c : transform_class) (example : array) (st : json) (w : wf)
         (running : transform flt) (l : list string) : json * result (wf * transform flt) :=
  match l with
  | [] => (st, Ok (w, running))
  | fname :: rest =>
      or_stop st (do w' <- one_file E st example w fname; do proc <- item st "processing"; Ok (w', proc))
        (fun wp =>
           let (w', proc) := wp in
           let (proc', r) := c (w_array w') proc in
           let st' := put_processing st proc' in
           or_stop st'
             (do t <- r; match stack running (of_transform t) with (s, Ok _) => Ok s | (_, Err e) => Err e end)
             (fun running' => file_loop E c example st' w' running' rest))
  end.
Definition run_frequency_domain (E : environment) (f : names) (st : json) : json * result outcome :=
  let files := iterate f in
  or_stop st
    (do f0 <- pyget files 0; do ex <- example_array E st f0;
     match lookup "empty" (e_transforms E) with
     | None => Err KeyError
     | Some c => do proc <- item st "processing"; Ok (ex, c, proc)
     end)
    (fun xcp =>
       let '(ex, empty, proc) := xcp in
       let (proc', r) := empty ex proc in
       let st := put_processing st proc' in
       or_stop st
         (do running <- r; do proc <- item st "processing"; do jn <- item proc "transform"; do n <- str jn;
          match lookup n (e_transforms E) with Some c => Ok (running, c) | None => Err KeyError end)
         (fun rc =>
            let (running, c) := rc in
            match file_loop E c ex st (started ex) running files with
            | (st, Err e) => (st, Err e)
            | (st, Ok (w, t)) =>
                (st, do snr <- item st "signal-to-noise"; do p <- item snr "perform";
                     if truth p then
                       do w <- snr_step E st w; do s <- reported_snr st w; Ok (mkOutcome t (w_array w) s)
                     else Ok (mkOutcome t (w_array w) None))
            end)).

(** ** Entry points *)

(** The workflow classes, registered in maswworkflows.py:157, 182, 200, 257. *)
Inductive workflow_class : Set := Single | TimeDomain | TimeDomainXcorr | FrequencyDomain.
Definition swprocess_workflows : list (string * workflow_class) :=
  [("single", Single); ("time-domain", TimeDomain); ("time-domain-xcorr", TimeDomainXcorr);
   ("frequency-domain", FrequencyDomain)].
(** Masw.run, masw.py:73-87; the constructor of the xcorr workflow takes no `fnames`. *)
Definition masw_run (E : environment) (f : names) (st : json) : json * result outcome :=
  or_stop st
    (do jw <- item st "workflow"; do n <- str jw;
     match lookup n swprocess_workflows with Some c => Ok c | None => Err KeyError end)
    (fun c => match c with
              | Single => run_single E f st
              | TimeDomain => run_time_domain E f st
              | TimeDomainXcorr => (st, Err TypeError)
              | FrequencyDomain => run_frequency_domain E f st
              end).
(** MaswXcorr.run, masw.py:257-278 *)
Definition xcorr_run (E : environment) (f : names) (fsrc : list string) (ch : Z) (st : json) : json * result outcome :=
  or_stop st
    (do jw <- item st "workflow";
     match jw with JStr "time-domain-xcorr" => Ok tt | _ => Err NotImplementedError end)
    (fun _ => run_xcorr E f fsrc ch st).

(** * Transform classes *)

(** from_array of a class that only reads its settings. *)
Definition reading (f : array -> json -> result (transform flt)) : transform_class := fun a st => (st, f a st).
(** EmptyWavefieldTransform.from_array, wavefieldtransforms.py:340-357.  Simplification: all
    settings are read before the frequencies are computed. *)
Definition wt_of (proc : json) : result wt_settings :=
  do a <- item proc "fmin"; do b <- item proc "fmax"; do c <- item proc "vmin"; do d <- item proc "vmax";
  do e <- item proc "nvel"; do f <- item proc "vspace";
  do a <- num a; do b <- num b; do c <- num c; do d <- num d; do e <- int e; do f <- str f;
  Ok (mkWt a b c d e f).
Definition empty_class (geomspace : Qc -> Qc -> Z -> result (list Qc)) : transform_class :=
  reading (fun a proc => do st <- wt_of proc; empty_from_array geomspace a st).
(** FK.from_array, wavefieldtransforms.py:718-723: overwrites two settings, then FDBF. *)
Definition fk_class (fdbf : array -> json -> result (transform flt)) : transform_class := fun a proc =>
  match (do sp <- item proc "fdbf-specific"; do sp1 <- set_item sp "weighting" (JStr "none");
         do sp2 <- set_item sp1 "steering" (JStr "plane"); set_item proc "fdbf-specific" sp2) with
  | Err e => (proc, Err e)
  | Ok proc' => (proc', fdbf a proc')
  end.
(** The classes registered in wavefieldtransforms.py:333, 438, 530, 583, 715; slantstack,
    phaseshift and fdbf only read their settings. *)
Definition swprocess_transforms (geomspace : Qc -> Qc -> Z -> result (list Qc))
           (slantstack phaseshift fdbf : array -> json -> result (transform flt)) : list (string * transform_class) :=
  [("empty", empty_class geomspace); ("slantstack", reading slantstack); ("phaseshift", reading phaseshift);
   ("fdbf", reading fdbf); ("fk", fk_class fdbf)].
