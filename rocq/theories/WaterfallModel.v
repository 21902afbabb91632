(* Model of Array1D.waterfall, Array1D.plot, Array1D.manual_pick_first_arrivals and
   Array1D.auto_pick_first_arrivals (/repo/swprocess/array1d.py).  A drawing is the list of the
   calls made on the axes, in order; colours, line widths, tick sizes and layout are left out. *)
From Verif Require Export InteractModel.
Local Open Scope string_scope.
Local Open Scope nat_scope.
Local Open Scope list_scope.
Local Open Scope py_scope.

Inductive mark : Type :=
| Curve (x y : list flt)                                (* ax.plot(x, y) *)
| Limits (axis : string) (from to : Qc)                 (* ax.set_<axis>lim *)
| Grid (axis : string)                                  (* ax.grid *)
| Label (axis text : string)                            (* ax.set_<axis>label *)
| Summary (number : nat) (gap : option Qc) (source : Qc). (* ax.text, array1d.py:385-393 *)

(** A matplotlib Axes has set_xlim and set_ylim, and no set_<t>lim for another t. *)
Definition has_axis (t : string) : bool := String.eqb t "x" || String.eqb t "y".

(** np.mean(np.diff(positions))/2, array1d.py:300-301; the mean of nothing is NaN (with a
    warning). *)
Definition default_scale (pos : list Qc) : flt :=
  match diffs pos with
  | [] => NaN
  | d => Fin (Qcsum d / QcN (List.length d) / Q2Qc 2)%Qc
  end.
(** array1d.py:302-304: traces[i, :] *= scale; traces[i, :] += position *)
Definition shifted (scale : flt) (pos : Qc) (row : list flt) : list flt :=
  map (fun v => fadd (fmul v scale) (Fin pos)) row.
(** array1d.py:312-320: time along x or (any other name) along y *)
Definition trace_curve (time_ax : string) (ts : list Qc) (row : list flt) : mark :=
  if String.eqb time_ax "x" then Curve (map Fin ts) row else Curve row (map Fin ts).
(** array1d.py:322-341, after the curves.  min and max of an empty list raise ValueError,
    a missing method AttributeError, positions[1] of a single sensor IndexError. *)
Definition decorate (time_ax : string) (ts pos : list Qc) : list mark * result unit :=
  let dist_ax := if String.eqb time_ax "y" then "x" else "y" in
  match ts with
  | [] => ([], Err ValueError)
  | t0 :: tr =>
      if has_axis time_ax then
        let lim := if String.eqb time_ax "x" then Limits time_ax (lmin t0 tr) (lmax t0 tr)
                   else Limits time_ax (lmax t0 tr) (lmin t0 tr) in
        match pos with
        | p0 :: p1 :: _ =>
            let gap := (p1 - p0)%Qc in
            ([lim; Limits dist_ax (p0 - gap)%Qc (last pos 0 + gap)%Qc; Grid time_ax;
              Label time_ax "Time (s)"; Label dist_ax "Distance (m)"], Ok tt)
        | _ => ([lim], Err IndexError)
        end
      else ([], Err AttributeError)
  end.
(** waterfall, array1d.py:242-341.  [given]: the caller passed `ax`; the result says whether
    (fig, ax) is returned (None otherwise). *)
Definition waterfall (a : array) (given : bool) (time_ax : string) (dtr : bool) (norm : norm_mode)
    (scale : option Qc) (pnorm : bool) : list mark * result bool :=
  if negb given && negb (has_axis time_ax) then ([], Err ValueError) else
  match pyget (sensors a) 0 with
  | Err e => ([], Err e)
  | Ok s0 =>
      let ts := time (ser s0) in
      match timeseriesmatrix a dtr norm with
      | Err e => ([], Err e)
      | Ok rows =>
          match (if pnorm then position_normalized a else Ok (position a)) with
          | Err e => ([], Err e)
          | Ok pos =>
              let sc := match scale with None => default_scale pos | Some c => Fin c end in
              let curves := map (fun pr => trace_curve time_ax ts (shifted sc (fst pr) (snd pr))) (combine pos rows) in
              let (m, r) := decorate time_ax ts pos in
              (curves ++ m, match r with Err e => Err e | Ok _ => Ok (negb given) end)
          end
      end
  end.

(** plot (schematic), array1d.py:343-411: the sensors, the text, the source; [ylim] is what
    ax.get_ylim() answers (matplotlib's autoscaling is not modelled). *)
Definition schematic (a : array) (given : bool) (ylim : Qc * Qc) : list mark * result bool :=
  let xs := map (fun s => Fin (sx s)) (sensors a) in
  let ys := map (fun s => Fin (sy s)) (sensors a) in
  match spacing a with
  | Err ValueError | Ok _ =>
      let gap := match spacing a with Ok d => Some d | Err _ => None end in
      ([Curve xs ys; Summary (nchannels a) gap (round2 (src_x (src a)));
        Curve [Fin (src_x (src a))] [Fin (src_y (src a))];
        Limits "y" (if Qcltb (QcZ (-2)) (fst ylim) then QcZ (-2) else fst ylim)
                   (if Qcltb (snd ylim) (QcZ 5) then QcZ 5 else snd ylim);
        Label "x" "Distance (m)"], Ok (negb given))
  | Err e => ([Curve xs ys], Err e)
  end.

(** auto_pick_first_arrivals, array1d.py:413-419 *)
Definition auto_pick (a : array) (algorithm : string) (thr : Qc) : result (list Qc * list Qc) :=
  if String.eqb algorithm "threshold" then pick_on_threshold a thr else Err NotImplementedError.

(** ax.get_xlabel(): the last text given to set_xlabel, "" before *)
Definition xlabel (m : list mark) : string :=
  fold_left (fun l e => match e with Label "x" t => t | _ => l end) m "".
(** manual_pick_first_arrivals, array1d.py:441-469.  `_, ax = None` raises TypeError.  npts is
    np.inf: the number of accepted points never exceeds the number of answers, so any larger
    bound acts like it. *)
Definition manual_pick (a : array) (given : bool) (time_ax : string) (dtr : bool) (norm : norm_mode)
    (scale : option Qc) (pnorm : bool) (u : user) : dialogue (result (list Qc * list Qc)) :=
  match waterfall a given time_ax dtr norm scale pnorm with
  | (_, Err e) => Returned (Err e) u
  | (_, Ok false) => Returned (Err TypeError) u
  | (m, Ok true) =>
      match ginput_session true (Z.of_nat (List.length (clicks u)) + 1) true u with
      | Waiting => Waiting
      | Returned (xs, ys) u' =>
          Returned (Ok (if String.eqb (xlabel m) "Distance (m)" then (xs, ys) else (ys, xs))) u'
      end
  end.
