(* Model of .max files: /repo/swprocess/regex.py:23-92 (the SPAC patterns are in SpacModel.v),
   /repo/swprocess/meta.py:20-27, Peaks._parse_peaks and Peaks.from_max
   (peaks.py:147-212, 615-647) and PeaksSuite.from_max (peakssuite.py:807-876). *)
From Verif Require Export SuiteModel Regex.
Local Open Scope nat_scope.
Local Open Scope list_scope.
Local Open Scope py_scope.
Local Open Scope char_scope.

(** * Patterns, regex.py *)
(** DEFAULT_TIME, regex.py:23 *)
Definition TIME : re := seqs [Plus digit; Opt (is "."); Star digit].
(** NUMBER and DEFAULT_FREQUENCY, regex.py:24-25 (the '.' is not escaped) *)
Definition NUMBER : re :=
  seqs [Opt (is "-"); Plus digit; Opt any; Star digit;
        Opt (fun a => is a "e" || is a "E"); Opt (fun a => is a "+" || is a "-"); Star digit].
Definition INF : re := Seq (Opt (is "-")) (Lit (lit "inf")).
Definition SP : re := Chr (is " ").

(** validate_wavetypes, regex.py:88-92 *)
Definition validate_wavetypes (w : string) : result string :=
  if String.eqb w "rayleigh" then Ok "Rayleigh"%string
  else if String.eqb w "love" then Ok "Love"%string
  else if String.eqb w "vertical" then Ok "Vertical"%string
  else if String.eqb w "radial" then Ok "Radial"%string
  else if String.eqb w "transverse" then Ok "Transverse"%string
  else Err ValueError.
(** A text used as a pattern; what the model does not cover is RuntimeError. *)
Definition as_pattern (dflt : re) (t : option text) : result re :=
  match t with
  | None => Ok dflt
  | Some t => match pattern_of t with Some r => Ok r | None => Err RuntimeError end
  end.
(** get_peak_from_max, regex.py:28-48; groups 1 to 7 *)
Definition peak_re (time frq : re) (wave : string) : re :=
  seqs [Grp 1 time; SP; Grp 2 frq; SP; Lit (lit wave); SP; Grp 3 NUMBER; SP; Grp 4 NUMBER; SP;
        Grp 5 NUMBER; SP; Grp 6 (Alt NUMBER (Alt INF (Lit (lit "nan")))); SP; Grp 7 NUMBER; SP; Chr (is "1")].
Definition get_peak_from_max (time frq : option text) (wavetype : string) : result re :=
  do w <- validate_wavetypes wavetype;
  do t <- as_pattern TIME time; do f <- as_pattern NUMBER frq; Ok (peak_re t f w).
(** get_wavetype, regex.py:53-56: the alternation is not in parentheses, so it splits
    the whole pattern in three *)
Definition get_wavetype : re :=
  Alt (seqs [TIME; SP; NUMBER; SP; Grp 1 (Plus solid); SP; NUMBER; SP; NUMBER; SP; NUMBER; SP; NUMBER])
      (Alt INF (seqs [Lit (lit "nan"); SP; NUMBER; SP; Chr (is "1")])).
(** get_geopsy_version, regex.py:50-51 *)
Definition get_geopsy_version : re :=
  seqs [Lit (lit "geopsypack-"); Grp 1 (Plus digit); Chr any; Grp 2 (Plus digit); Chr any; Grp 3 (Plus digit)].
(** get_process_type, get_nmaxima, regex.py:58-62 *)
Definition get_process_type : re := Seq (Lit (lit "PROCESS_TYPE=")) (Grp 1 (Plus solid)).
Definition get_nmaxima : re := Seq (Lit (lit "N_MAXIMA=")) (Grp 1 (Plus digit)).
(** get_all, regex.py:64-86, with a time and a wavetype *)
Definition all_re (time : re) (wave : string) : re :=
  seqs [time; SP; Star any; SP; Lit (lit wave); SP; Star any; SP; Chr (is "1")].
Definition get_all (time : text) (wavetype : string) : result re :=
  do w <- validate_wavetypes wavetype;
  do t <- as_pattern TIME (Some time); Ok (all_re t w).

(** match.groups()[n-1]; AttributeError if there is no match *)
Definition groups (m : option caps) : result caps :=
  match m with Some c => Ok c | None => Err AttributeError end.
Definition cap (n : nat) (c : caps) : text :=
  match group n c with Some t => t | None => [] end.

(** * Numbers in texts *)
Definition digit_val (a : ascii) : Z := Z.of_nat (nat_of_ascii a - 48).
Fixpoint digits_val (acc : Z) (t : text) : Z :=
  match t with [] => acc | a :: t' => digits_val (acc * 10 + digit_val a)%Z t' end.
(** leading digits and the rest *)
Fixpoint split_digits (t : text) : text * text :=
  match t with
  | a :: t' => if digit a then let (d, r) := split_digits t' in (a :: d, r) else ([], t)
  | [] => ([], [])
  end.
Definition scale10 (m e : Z) : Qc :=
  if (0 <=? e)%Z then QcZ (m * 10 ^ e) else (QcZ m / QcZ (10 ^ (- e)))%Qc.
(** float(text) for texts with digits, '.', exponent and sign, and inf, nan; other
    spellings that float accepts (underscores, surrounding blanks, "infinity") are
    not covered and give ValueError. *)
Definition float_exponent (t : text) : option Z :=
  match t with
  | [] => Some 0%Z
  | e :: t' =>
      if (is e "e" || is e "E")%bool then
        let (neg, t'') := match t' with
                          | s :: r => if is s "-" then (true, r) else if is s "+" then (false, r) else (false, t')
                          | [] => (false, t') end in
        match split_digits t'' with
        | ((_ :: _) as d, []) => Some (if neg then - digits_val 0 d else digits_val 0 d)%Z
        | _ => None
        end
      else None
  end.
Definition float_unsigned (t : text) : option Qc :=
  let (d, r) := split_digits t in
  let (f, r') := match r with
                 | p :: r1 => if is p "." then split_digits r1 else ([], r)
                 | [] => ([], r) end in
  match (d ++ f)%list with
  | [] => None
  | df => match float_exponent r' with
          | Some e => Some (scale10 (digits_val 0 df) (e - Z.of_nat (List.length f)))
          | None => None
          end
  end.
Definition text_eqb (a b : text) : bool := String.eqb (string_of_list_ascii a) (string_of_list_ascii b).
Definition parse_float (t : text) : result flt :=
  if text_eqb t (lit "nan") then Ok NaN
  else if text_eqb t (lit "inf") then Ok PInf
  else if text_eqb t (lit "-inf") then Ok NInf
  else match t with
       | a :: t' => if is a "-" then match float_unsigned t' with Some q => Ok (Fin (- q)%Qc) | None => Err ValueError end
                    else match float_unsigned t with Some q => Ok (Fin q) | None => Err ValueError end
       | [] => Err ValueError
       end.
(** 1/float(slo) *)
Definition inverse (x : flt) : result flt :=
  match x with
  | Fin q => if Qceqb q 0%Qc then Err ZeroDivisionError else Ok (Fin (1 / q)%Qc)
  | _ => Ok (fdiv f1 x)
  end.

(** str.lower *)
Definition lower_char (a : ascii) : ascii :=
  let n := nat_of_ascii a in
  if (Nat.leb 65 n && Nat.leb n 90)%bool then ascii_of_nat (n + 32) else a.
Definition lower (t : text) : text := map lower_char t.

(** * Peaks._parse_peaks, peaks.py:147-212 *)
Definition mem_text (t : text) (l : list text) : bool := existsb (text_eqb t) l.
(** the loop that collects texts without repetition *)
Fixpoint distinct (seen : list text) (l : list text) : list text :=
  match l with
  | [] => seen
  | t :: l' => if mem_text t seen then distinct seen l' else distinct (seen ++ [t]) l'
  end.
Record row_data : Type := mkRow { r_frq : flt; r_vel : flt; r_azi : flt; r_ell : flt; r_noi : flt; r_pwr : flt }.
Definition nan_row : row_data := mkRow NaN NaN NaN NaN NaN NaN.
(** peaks.py:194-202, one match *)
Definition read_match (nmaxima : nat) (row : nat) (c : caps) : result row_data :=
  do f <- parse_float (cap 2 c);
  if Nat.leb nmaxima row then Err IndexError else
  do s <- parse_float (cap 3 c);
  do v <- inverse s;
  do a <- parse_float (cap 4 c);
  do e <- parse_float (cap 5 c);
  do n <- parse_float (cap 6 c);
  do p <- parse_float (cap 7 c);
  Ok (mkRow f v a e n p).
Definition enumerate {A} (l : list A) : list (nat * A) := combine (range (List.length l)) l.
(** one column *)
Definition read_column (data : text) (time : text) (wavetype : string) (nmaxima : nat) (frq : text)
  : result (list row_data) :=
  do r <- get_peak_from_max (Some time) (Some frq) wavetype;
  mapM (fun ic => read_match nmaxima (fst ic) (snd ic)) (enumerate (finditer r data)).
Definition matrix_of (get : row_data -> flt) (nmaxima : nat) (cols : list (list row_data)) : nd flt :=
  ND (S2 nmaxima (List.length cols))
     (List.concat (map (fun i => map (fun c => get (nth i c nan_row)) cols) (range nmaxima))).
Definition clamp_nmaxima (t : text) : nat := Nat.min 100 (Nat.max 1 (Z.to_nat (digits_val 0 t))).

Definition effective_wavetype (wavetype : string) (from_file : option text) : string :=
  if (String.eqb wavetype "rayleigh" &&
      match from_file with Some t => text_eqb t (lit "Vertical") | None => false end)%bool
  then "vertical"%string else wavetype.
Definition parse_peaks (data : text) (wavetype : string) (start_time : option text)
           (frequencies : option (list text)) (nmaxima : option nat) : result peaks :=
  do wf <- groups (search get_wavetype data);
  let wavetype := effective_wavetype wavetype (group 1 wf) in
  do pt <- groups (search get_process_type data);
  let process :=
    let low := lower (cap 1 pt) in
    if (text_eqb low (lit "rtbf") &&
        match group 1 wf with Some t => text_eqb t (lit "Vertical") | None => false end)%bool
    then lit "capon" else low in
  do time <- match start_time with
             | Some t => Ok t
             | None => do r <- get_peak_from_max None None wavetype;
                       do c <- groups (search r data); Ok (cap 1 c)
             end;
  do frqs <- match frequencies with
             | Some l => Ok l
             | None => do r <- get_peak_from_max (Some time) None wavetype;
                       Ok (distinct [] (map (cap 2) (finditer r data)))
             end;
  do nmax <- match nmaxima with
             | Some n => Ok n
             | None => do c <- groups (search get_nmaxima data); Ok (clamp_nmaxima (cap 1 c))
             end;
  do cols <- mapM (read_column data time wavetype nmax) frqs;
  do all <- get_all time wavetype;
  let found := filter (fun x => negb (is_nan x)) (dat (matrix_of r_frq nmax cols)) in
  if negb (Nat.eqb (List.length found) (List.length (finditer all data))) then Err ValueError else
  new_peaks (matrix_of r_frq nmax cols) (matrix_of r_vel nmax cols)
    (string_of_list_ascii (time ++ ["-"] ++ process))
    [("azimuth"%string, matrix_of r_azi nmax cols); ("ellipticity"%string, matrix_of r_ell nmax cols);
     ("noise"%string, matrix_of r_noi nmax cols); ("power"%string, matrix_of r_pwr nmax cols)].

(** meta.py:20-27 *)
Definition check_geopsy_version (version : text) : result unit :=
  if text_eqb version (lit "3.2.0") then Ok tt else Err ValueError.
Definition check_version (data : text) : result unit :=
  do c <- groups (search get_geopsy_version data);
  check_geopsy_version (cap 1 c ++ ["."] ++ cap 2 c ++ ["."] ++ cap 3 c).
(** Peaks.from_max, peaks.py:637-647, of a file's contents *)
Definition peaks_from_max (data : text) (wavetype : string) : result peaks :=
  do _ <- check_version data; parse_peaks data wavetype None None None.

(** PeaksSuite.from_max, peakssuite.py:833-876: the loop over the files; [wavetype]
    is overwritten when a file holds vertical-component peaks, and stays so. *)
Definition read_file (data : text) (wavetype : string) : string * result (list peaks) :=
  match check_version data with
  | Err e => (wavetype, Err e)
  | Ok _ =>
    match groups (search get_wavetype data) with
    | Err e => (wavetype, Err e)
    | Ok wf =>
      let w := effective_wavetype wavetype (group 1 wf) in
      (w, do c <- groups (search get_nmaxima data);
          let nmax := clamp_nmaxima (cap 1 c) in
          do r <- get_peak_from_max None None w;
          let found := finditer r data in
          let frqs := distinct [] (map (cap 2) found) in
          mapM (fun t => parse_peaks data w (Some t) (Some frqs) (Some nmax))
               (distinct [] (map (cap 1) found)))
    end
  end.
Fixpoint read_files (files : list text) (wavetype : string) : result (list peaks) :=
  match files with
  | [] => Ok []
  | d :: t => let (w, r) := read_file d wavetype in
              do ps <- r; do qs <- read_files t w; Ok (ps ++ qs)
  end.
Definition suite_from_max (files : list text) (wavetype : string) : result (suite peaks) :=
  do ps <- read_files files wavetype; from_peaks identifier ps.
