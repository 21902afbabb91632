(* Model of AbstractWavefieldTransform.plot and plot_snr
   (/repo/swprocess/wavefieldtransforms.py:140-271) for real power arrays, and of
   AbstractWavefieldTransform.from_array (wavefieldtransforms.py:60-69).  Axes are given by what is
   drawn on them; colours, colour bar, rasterisation, labels of lines and layout are left out. *)
From Verif Require Export TransformModel.
Local Open Scope string_scope.
Local Open Scope nat_scope.
Local Open Scope list_scope.
Local Open Scope py_scope.

(** from_array, wavefieldtransforms.py:60-69; [run] is the class's transform method. *)
Definition from_array {A K} (geomspace : Qc -> Qc -> Z -> result (list Qc))
    (run : A -> list Qc -> result (list Qc * list (list K))) (a : A) (st : wt_settings) : result (transform K) :=
  do vels <- create_vector geomspace (s_vmin st) (s_vmax st) (s_nvel st) (s_vspace st);
  do fp <- run a vels;
  Ok (new_transform (fst fp) vels (snd fp)).

Inductive drawing : Type :=
| Filled (fs vs : list Qc) (p : list (list flt)) (levels : list flt)   (* ax.contourf *)
| Points (xs ys : list Qc)                                             (* the peaks *)
| Line (xs ys : list Qc)                                               (* the near-field limit *)
| Labels.                                                              (* set_xlabel, set_ylabel *)

(** np.linspace(0, top, n + 1) *)
Definition levels_to (top : flt) (n : nat) : list flt :=
  map (fun i => if i =? n then top else fmul (Fin (QcN i)) (fdiv top (Fin (QcN n)))) (range (n + 1)).
Fixpoint steps (l : list flt) : list flt :=
  match l with
  | a :: t => match t with [] => [] | b :: _ => fsub b a :: steps t end
  | [] => []
  end.
(** matplotlib's checks of contourf's arguments: shapes (TypeError), then increasing levels
    (ValueError; a NaN among the differences passes np.min(np.diff(levels)) <= 0). *)
Definition contourf (fs vs : list Qc) (p : list (list flt)) (levels : list flt) : result drawing :=
  match p with
  | r :: _ :: _ =>
      if (2 <=? List.length r) && (List.length fs =? List.length r) && (List.length vs =? List.length p) then
        if negb (existsb is_nan (steps levels)) && existsb (fun d => flt_le d f0) (steps levels) then Err ValueError
        else Ok (Filled fs vs p levels)
      else Err TypeError
  | _ => Err TypeError
  end.
(** array1d.py:154-156 [array_center_distance]; without sensors np.mean is NaN (not reached). *)
Definition array_center_distance (a : array) : Qc := (Qcsum (offsets a) / QcN (List.length (offsets a)))%Qc.

(** plot, wavefieldtransforms.py:169-271.  [array_] is self.array, [xlim] the limits of the x axis
    when they are asked for; the colour map exists; [nearfield] is not zero.  Result: the object
    afterwards, what was drawn on the axes, and the exception or whether (fig, ax) is returned. *)
Definition plot_near (array_ : option array) (nearfield : option Qc) (xlim : Qc * Qc) : result (list drawing) :=
  match nearfield with
  | None => Ok []
  | Some n =>
      match array_ with
      | None => Err AttributeError
      | Some a =>
          do fs <- linspace (fst xlim) (snd xlim) 30;
          let wv := (array_center_distance a / n)%Qc in
          Ok [Line fs (map (fun f => (f * wv)%Qc) fs)]
      end
  end.
Definition plot_peaks (w : transform flt) (peaks : string) : result (list drawing) :=
  if String.eqb peaks "none" then Ok []
  else do ps <- find_peak_real w peaks; Ok [Points (wfrq w) ps].
Definition transform_plot (w : transform flt) (array_ : option array) (fig ax : bool) (normalization peaks : string)
    (nearfield : option Qc) (xlim : Qc * Qc) : transform flt * list drawing * result bool :=
  if ax && negb fig then (w, [], Err ValueError)
  else
    match normalize_real w normalization with
    | (w', Err e) => (w', [], Err e)
    | (w', Ok _) =>
        match (do top <- fmax (List.concat (power w'));
               contourf (wfrq w') (wvel w') (power w') (levels_to top 20)) with
        | Err e => (w', [], Err e)
        | Ok img =>
            match plot_peaks w' peaks with
            | Err e => (w', [img], Err e)
            | Ok pk =>
                match plot_near array_ nearfield xlim with
                | Err e => (w', img :: pk, Err e)
                | Ok nf => (w', img :: pk ++ nf ++ [Labels], Ok (negb ax))
                end
            end
        end
    end.

(** plot_snr, wavefieldtransforms.py:140-167; [Ok None]: only a warning.  ax.plot refuses data of
    different lengths (ValueError). *)
Definition plot_snr (snr : option (list flt)) (frqs : list Qc) : result (option (list Qc * list flt)) :=
  match snr with
  | None => Ok None
  | Some s => if List.length frqs =? List.length s then Ok (Some (frqs, s)) else Err ValueError
  end.
