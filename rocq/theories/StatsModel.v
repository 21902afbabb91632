(* Model of /repo/swprocess/stats.py, class Statistics.  A data matrix is the list of
   its rows (observations); every row has one entry per sampling location. *)
From Verif Require Export SuiteModel.
Local Open Scope nat_scope.
Local Open Scope list_scope.
Local Open Scope py_scope.

Definition matrix := list (list flt).
(** m[a:b] for 0 <= a *)
Definition cut {A} (a b : nat) (l : list A) : list A := firstn (b - a) (skipn a l).
(** m[:, j] *)
Definition column (j : nat) (m : matrix) : list flt := map (fun r => nth j r NaN) m.
Definition observed (x : flt) : bool := negb (is_nan x).
Definition count_observed (l : list flt) : nat := List.length (filter observed l).
(** np.argwhere(mask).flatten() *)
Definition where_ (mask : list bool) : list nat :=
  map snd (filter fst (combine mask (range (List.length mask)))).

(** * _sort, stats.py:211-226 *)

(** rows [i] and [j] exchanged through tmp_row *)
Definition swap (i j : nat) (m : matrix) : matrix :=
  let tmp := nth i m [] in set_nth j tmp (set_nth i (nth j m []) m).
(** the rows with a value in this column, from row [c_row] on *)
Definition val_ids (c_row : nat) (col : list flt) : list nat :=
  where_ (map2 (fun x i => observed x && Nat.leb c_row i) col (range (List.length col))).
Fixpoint place (ids : list nat) (c_row : nat) (m : matrix) : nat * matrix :=
  match ids with
  | [] => (c_row, m)
  | v :: t => place t (S c_row) (swap c_row v m)
  end.
Fixpoint sort_columns (js : list nat) (c_row : nat) (m : matrix) : matrix :=
  match js with
  | [] => m
  | j :: t => let (c, m') := place (val_ids c_row (column j m)) c_row m in sort_columns t c m'
  end.
Definition sort_rows (ncols : nat) (m : matrix) : matrix := sort_columns (range ncols) 0 m.

(** * _identify_regions, stats.py:228-302 *)
Definition region : Type := (nat * nat) * (nat * nat).
Section Regions.
  Variables (nrows ncols : nat) (m : matrix) (threshold : Qc).
  (** (n_vals + n_val)/(totaln + total) >= density_threshold *)
  Definition dense (n t : nat) : bool := Qcleb threshold (QcN n / QcN t)%Qc.
  (** the growth of a region from its first cell, stats.py:244-291; None is the error
      "Iteration stopped without breaking." *)
  Fixpoint grow (fuel s_row s_col c_row c_col n_vals totaln : nat) : option (nat * nat) :=
    match fuel with
    | O => None
    | S k =>
        let '(row_failed, c_row, n_vals, totaln) :=
          if Nat.ltb (c_row + 1) nrows then
            let row := cut s_col (c_col + 1) (nth (c_row + 1) m []) in
            let n := n_vals + count_observed row in
            let t := totaln + List.length row in
            if dense n t then (false, c_row + 1, n, t) else (true, c_row, n_vals, totaln)
          else (true, c_row, n_vals, totaln) in
        let '(col_failed, c_col, n_vals, totaln) :=
          if Nat.ltb (c_col + 1) ncols then
            let col := column (c_col + 1) (cut s_row (c_row + 1) m) in
            let n := n_vals + count_observed col in
            let t := totaln + List.length col in
            if dense n t then (false, c_col + 1, n, t) else (true, c_col, n_vals, totaln)
          else (true, c_col, n_vals, totaln) in
        if (row_failed && col_failed)%bool then Some (c_row, c_col)
        else grow k s_row s_col c_row c_col n_vals totaln
    end.
  (** np.argwhere(~np.isnan(data_matrix[:, s_col]))[0][0]; IndexError without such a
      column or value *)
  Definition next_row (s_col : nat) : result nat :=
    if Nat.ltb s_col ncols then
      match where_ (map observed (column s_col m)) with i :: _ => Ok i | [] => Err IndexError end
    else Err IndexError.
  Fixpoint regions_from (fuel s_row s_col : nat) : result (list region) :=
    match fuel with
    | O => Err ValueError
    | S k =>
        match grow ((nrows - s_row) + (ncols - s_col)) s_row s_col s_row s_col 1 1 with
        | None => Err ValueError
        | Some (r, c) =>
            let reg := ((s_row, s_col), (r + 1, c + 1)) in
            if (Nat.eqb (r + 1) nrows && Nat.eqb (c + 1) ncols)%bool then Ok [reg]
            else do i <- next_row (c + 1); do rest <- regions_from k i (c + 1); Ok (reg :: rest)
        end
    end.
End Regions.
(** max_regions is 100 *)
Definition identify_regions (ncols : nat) (m : matrix) (threshold : Qc) : result (list region) :=
  regions_from (List.length m) ncols m threshold 100 0 0.

(** * _calc_density, stats.py:402-409; the corners are included.  The number of cells
    is an integer that may be zero or negative in Python; here the bottom-right corner
    is at or after the top-left one. *)
Definition calc_density (m : matrix) (tl br : nat * nat) : Qc :=
  let n_nums := count_observed (List.concat (map (cut (snd tl) (snd br + 1)) (cut (fst tl) (fst br + 1) m))) in
  (QcN n_nums / QcN ((snd br - snd tl + 1) * (fst br - fst tl + 1)))%Qc.

(** * _fill_data, stats.py:304-346.  [draw k mu sd] is the k-th value returned by
    rng.normal, called with [mu] and [sd]; [k] counts the calls.  Means and standard
    deviations are given; [fill_default] has them optional. *)
Section Fill.
  Variable draw : nat -> flt -> flt -> flt.
  Definition set2 (i j : nat) (v : flt) (m : matrix) : matrix := set_nth i (set_nth j v (nth i m [])) m.
  Fixpoint fill_ids (mu sd : flt) (j : nat) (ids : list nat) (st : matrix * nat) : matrix * nat :=
    match ids with
    | [] => st
    | i :: t => fill_ids mu sd j t (set2 i j (draw (snd st) mu sd) (fst st), S (snd st))
    end.
  Fixpoint fill_columns (j : nat) (stats : list (flt * flt)) (st : matrix * nat) : matrix * nat :=
    match stats with
    | [] => st
    | (mu, sd) :: t =>
        fill_columns (S j) t (fill_ids mu sd j (where_ (map is_nan (column j (fst st)))) st)
    end.
  (** zip(data_matrix.T, means, stddevs) stops with the shortest *)
  Definition fill_data (ncols : nat) (m : matrix) (means stddevs : list flt) (k : nat) : matrix * nat :=
    fill_columns 0 (firstn ncols (combine means stddevs)) (m, k).
  (** stats.py:335-338: omitted means and deviations are those of the observed values of
      each column *)
  Definition fill_default (fsqrt : flt -> flt) (ncols : nat) (m : matrix) (means stddevs : option (list flt)) (k : nat) : matrix * nat :=
    let mu := match means with Some l => l | None => map nanmean (transpose ncols m) end in
    let sd := match stddevs with Some l => l | None => map (nanstd fsqrt) (transpose ncols m) end in
    fill_data ncols m mu sd k.
End Fill.

(** * _fill_corr, stats.py:348-400.  [lg] is np.log, [pw] np.power and [fit] what
    curve_fit finds for finite data; curve_fit raises ValueError if a number is not
    finite. *)
Section FillCorr.
  Variables (lg : flt -> flt) (pw : flt -> flt -> flt) (fit : list flt -> list flt -> result (flt * flt)).
  Definition curve_fit (xs ys : list flt) : result (flt * flt) :=
    if (forallb is_finite xs && forallb is_finite ys)%bool then fit xs ys else Err ValueError.
  (** l[ids] *)
  Definition pick (l : list flt) (ids : list nat) : result (list flt) :=
    mapM (fun i => match nth_error l i with Some x => Ok x | None => Err IndexError end) ids.
  Fixpoint assign (ids : list nat) (vs : list flt) (l : list flt) : list flt :=
    match ids, vs with
    | i :: ids', v :: vs' => assign ids' vs' (set_nth i v l)
    | _, _ => l
    end.
  Definition exponential_decay (x y0 d : flt) : flt := fmul y0 (pw d x).
  (** the ids are those where [xs], not [ys], is missing *)
  Definition filler (xs ys : list flt) : result (list flt) :=
    let invalid := where_ (map is_nan xs) in
    let valid := where_ (map observed xs) in
    do xv <- pick xs valid; do yv <- pick ys valid;
    do p <- curve_fit xv yv;
    do xi <- pick xs invalid;
    do _ <- pick ys invalid;
    Ok (assign invalid (map (fun x => exponential_decay x (fst p) (snd p)) xi) ys).
  Definition missing (ys : list flt) : bool := existsb is_nan ys.
  (** xs - xs[0] *)
  Definition from_first (xs : list flt) : result (list flt) :=
    match xs with [] => Err IndexError | x0 :: _ => Ok (map (fun x => fsub x x0) xs) end.
  Definition fill_row (log_xx : list flt) (row : nat) (r : list flt) : result (list flt) :=
    do right <- (if missing (skipn row r)
                 then do xs <- from_first (skipn row log_xx); filler xs (skipn row r)
                 else Ok (skipn row r));
    let r := firstn row r ++ right in
    do left <- (if missing (rev (firstn row r))
                then do xs <- from_first (rev (firstn row log_xx));
                     do f <- filler xs (rev (firstn row r)); Ok (rev f)
                else Ok (firstn row r));
    Ok (left ++ skipn row r).
  Fixpoint fill_rows (log_xx : list flt) (row : nat) (m : matrix) : result matrix :=
    match m with
    | [] => Ok []
    | r :: t => do r' <- fill_row log_xx row r; do t' <- fill_rows log_xx (S row) t; Ok (r' :: t')
    end.
  Definition fill_corr (xx : list flt) (m : matrix) : result matrix := fill_rows (map lg xx) 0 m.
End FillCorr.

(** * Building objects *)

(** Statistics.__init__, stats.py:29-33, of values that are already arrays of floats:
    the keyword of the last np.array is misspelt. *)
Definition statistics_object : Type := list flt * list flt * list flt * matrix.
Definition new_statistics (xx mean stddev : list flt) (corr : matrix) : result statistics_object := Err TypeError.
(** from_peakssuite, stats.py:35-39: the class has no from_array, and nothing is returned *)
Definition stats_from_suite (ps : list peaks) (xx : list flt) (xtype ytype : string) : result statistics_object :=
  do _ <- to_array ps xtype ytype xx; Err AttributeError.

(** from_data_matrix, stats.py:41-120; _drop and _drop_indices, stats.py:122-209, have the
    same text as those of PeaksSuite, [SuiteModel.drop] *)
Section FromMatrix.
  Variables (draw : nat -> flt -> flt -> flt) (fsqrt : flt -> flt).
  Variables (lg : flt -> flt) (pw : flt -> flt -> flt) (fit : list flt -> list flt -> result (flt * flt)).
  Variable corrcoef : matrix -> matrix.
  (** _calc_stat, stats.py:411-415 *)
  Definition calc_stat (ncols : nat) (m : matrix) : list flt * list flt :=
    (map nanmean (transpose ncols m), map (nanstd fsqrt) (transpose ncols m)).
  (** m[r0:r1, c0:c1] = b *)
  Definition put (r : region) (b m : matrix) : matrix :=
    let '((r0, c0), (r1, c1)) := r in
    firstn r0 m ++ map2 (fun row new => firstn c0 row ++ new ++ skipn c1 row) (cut r0 r1 m) b ++ skipn r1 m.
  Definition fill_region (mean sd : list flt) (st : matrix * nat) (r : region) : matrix * nat :=
    let '((r0, c0), (r1, c1)) := r in
    let (b, k) := fill_data draw (c1 - c0) (map (cut c0 c1) (cut r0 r1 (fst st))) (cut c0 c1 mean) (cut c0 c1 sd) (snd st) in
    (put r b (fst st), k).
  (** data_matrix[nan_mask] = np.nan *)
  Definition forget (original m : matrix) : matrix :=
    map2 (map2 (fun o x => if is_nan o then NaN else x)) original m.
  Definition five_percent : flt := Fin (Q2Qc (5 # 100)).
  Definition one_percent : flt := Fin (Q2Qc (1 # 100)).
  (** stats.py:81-108 *)
  Fixpoint replace_missing (attempts : nat) (ncols : nat) (regions : list region) (mean sd : list flt)
           (original m : matrix) (k : nat) : result matrix :=
    match attempts with
    | O => Err ValueError
    | S a =>
        let (m', k') := fold_left (fill_region mean sd) regions (m, k) in
        let (mean', sd') := calc_stat ncols m' in
        do p <- fmax (map2 (fun n o => fabs (fdiv (fsub n o) o)) mean' mean);
        do d <- fmax (map fabs (map2 fsub (map2 fdiv sd' mean') (map2 fdiv sd mean)));
        if (flt_lt p five_percent && flt_lt d one_percent)%bool then Ok m'
        else replace_missing a ncols regions mean sd original (forget original m') k'
    end.
  (** corr[s_row:e_row, s_col:e_col] = np.corrcoef(...): a square block, or one number
      for a single column, into a block of the region's shape *)
  Definition corr_block (st : result matrix) (m : matrix) (r : region) : result matrix :=
    do c <- st;
    let '((r0, c0), (r1, c1)) := r in
    let (h, w) := (r1 - r0, c1 - c0) in
    let b := corrcoef (map (cut c0 c1) (cut r0 r1 m)) in
    if Nat.eqb w 1 then Ok (put r (repeat (hd [NaN] b) h) c)
    else if Nat.eqb h w then Ok (put r b c) else Err ValueError.
  (** [unset] stands for the contents of np.empty_like(data_matrix) *)
  Definition from_data_matrix (unset : matrix -> matrix) (xx : list flt) (data : matrix)
             (obs_pct sample_pct : Qc) (sample_cnt : Z) (threshold : Qc) (attempts : nat) : result statistics_object :=
    let (xx, data) := drop obs_pct sample_pct sample_cnt xx data in
    let ncols := List.length xx in
    let data := sort_rows ncols data in
    let (mean, sd) := calc_stat ncols data in
    do regions <- identify_regions ncols data threshold;
    do data' <- replace_missing attempts ncols regions mean sd data data 0;
    do corr <- fold_left (fun st r => corr_block st data' r) regions (Ok (unset data'));
    do corr <- fill_corr lg pw fit xx corr;
    new_statistics xx mean sd corr.
End FromMatrix.
