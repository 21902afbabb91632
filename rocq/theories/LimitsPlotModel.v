(* Model of PeaksSuite.plot_resolution_limits (/repo/swprocess/peakssuite.py:176-216).  Drawing is
   the list of lines handed to ax.plot, as in PlotModel.v. *)
From Verif Require Export PlotModel.
From Verif Require Import TransformModel.
Local Open Scope string_scope.
Local Open Scope nat_scope.
Local Open Scope list_scope.
Local Open Scope py_scope.

(** ax.get_xlim(), ax.get_xscale(), ax.get_ylim(), ax.get_yscale(); the limits are finite. *)
Record view : Type := mkView { x_lo : Qc; x_hi : Qc; x_scale : string; y_lo : Qc; y_hi : Qc; y_scale : string }.
(** peakssuite.py:210-211 *)
Definition default_limit_style : dict kw :=
  [("color", KStr "#000000"); ("linestyle", KStr "--"); ("linewidth", KObj "0.75"); ("label", KStr "limit")].
(** The lines drawn, in order, and whether "Could not calculate resolution limits." is warned;
    [geomspace] stands for np.geomspace.  peakssuite.py:201-216.  ax.plot accepts the style. *)
Definition plot_resolution_limits (geomspace : Qc -> Qc -> Z -> result (list Qc)) (v : view)
    (xtype ytype attribute : string) (limits : flt * flt) (kws : dict kw) : result (list artist * bool) :=
  do xs <- create_vector geomspace (x_lo v) (x_hi v) 50 (x_scale v);
  do ys <- create_vector geomspace (y_lo v) (y_hi v) 50 (y_scale v);
  match calc_resolution_limits xtype attribute ytype limits (map Fin xs) (map Fin ys) with
  | Err NotImplementedError => Ok ([], true)
  | Err e => Err e
  | Ok (l1, l2) =>
      let st := merge default_limit_style kws in
      let first := mkArtist (fst l1) (snd l1) st in
      let st := dict_set "label" KNone st in
      let second := mkArtist (fst l2) (snd l2) st in
      Ok ([first; second], false)
  end.
