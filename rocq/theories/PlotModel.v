(* Model of Peaks.plot (/repo/swprocess/peaks.py:214-366) and PeaksSuite.plot
   (/repo/swprocess/peakssuite.py:218-344).  An Axes is the list of what was done to it; figure
   creation, layout and the rendering of styles are left out. *)
From Coq Require Import Ascii.
From Verif Require Export SuiteModel.
Local Open Scope string_scope.
Local Open Scope nat_scope.
Local Open Scope list_scope.
Local Open Scope py_scope.

(** A value of a keyword argument of ax.plot: a str, None, or another object with its str(). *)
Inductive kw : Set := KStr (s : string) | KNone | KObj (text : string).
(** A line drawn by ax.plot(x, y, **style). *)
Record artist : Type := mkArtist { px : list flt; py : list flt; style : dict kw }.
Inductive event : Type :=
| Drew (a : artist)
| Set_ (what value : string).   (* ax.set_<what>(value) *)
Definition axes : Type := list event.

(** The label matplotlib gives the line: str(label), or a generated name starting with "_" when
    the label is None or absent. *)
Definition label_of (a : artist) : string :=
  match assoc "label" (style a) with
  | Some (KStr s) | Some (KObj s) => s
  | _ => "_child"
  end.
(** Axes.get_legend_handles_labels keeps labels that are not empty and do not start with "_". *)
Definition in_legend (s : string) : bool :=
  match s with
  | EmptyString => false
  | String c _ => negb (Ascii.eqb c "_"%char)
  end.
Definition artists (ax : axes) : list artist :=
  List.concat (map (fun e => match e with Drew a => [a] | Set_ _ _ => [] end) ax).
Definition legend (ax : axes) : list string := filter in_legend (map label_of (artists ax)).

(** The arguments xtype and ytype: a str, a list or tuple of str, or something else. *)
Inductive type_arg : Set := TStr (s : string) | TSeq (l : list string) | TOther.
(** _prepare_types, peaks.py:262-306; called with the keywords xtype, ytype in this order. *)
Definition prepare_type (t : type_arg) : result (list string) :=
  match t with TStr s => Ok [s] | TSeq l => Ok l | TOther => Err TypeError end.
Definition prepare_types (x y : type_arg) : result (list string * list string) :=
  do xs <- prepare_type x;
  do ys <- prepare_type y;
  if List.length xs =? List.length ys then Ok (xs, ys) else Err IndexError.

(** {**d, **e} *)
Definition merge {A} (d e : dict A) : dict A := fold_left (fun d kv => dict_set (fst kv) (snd kv) d) e d.
(** peaks.py:338-343 *)
Definition default_style (p : peaks) : dict kw :=
  [("linestyle", KStr ""); ("marker", KStr "o"); ("color", KStr "b"); ("markersize", KObj "1");
   ("markerfacecolor", KStr "none"); ("label", KStr (identifier p))].
(** _plot, peaks.py:308-355: the line added to the axes.  `_name` for a name that is no data
    attribute of the object is taken not to exist (the names of private methods and of _valid are
    not considered); a mask is a boolean array of the data's shape or of one that does not fit;
    ax.plot itself accepts the style. *)
Definition plot_line (p : peaks) (xt yt : string) (kws : dict kw) (mask : option (nd bool)) : result artist :=
  let m := match mask with None => valid p | Some m => m end in
  do x <- stored p xt; do xs <- nd_select m x;
  do y <- stored p yt; do ys <- nd_select m y;
  Ok (mkArtist xs ys (merge (default_style p) kws)).
(** axes_defaults, peaks.py:47-57 *)
Definition axes_defaults (t : string) : list (string * string) :=
  if String.eqb t "frequency" then [("label", "Frequency (Hz)"); ("scale", "log")]
  else if String.eqb t "wavelength" then [("label", "Wavelength (m)"); ("scale", "log")]
  else if String.eqb t "velocity" then [("label", "Velocity (m/s)"); ("scale", "linear")]
  else if String.eqb t "slowness" then [("label", "Slowness (s/m)"); ("scale", "log")]
  else if String.eqb t "azimuth" then [("label", "Azimuth (deg)"); ("scale", "linear")]
  else [].
(** _configure_axes, peaks.py:357-366 *)
Definition configure (xt yt : string) : list event :=
  map (fun kv => Set_ ("x" ++ fst kv)%string (snd kv)) (axes_defaults xt)
  ++ map (fun kv => Set_ ("y" ++ fst kv)%string (snd kv)) (axes_defaults yt).
(** Peaks.plot after _prepare_types, peaks.py:240-260; plt.subplots(ncols=0) raises ValueError. *)
Definition plot_types (p : peaks) (xs ys : list string) (kws : dict kw) (mask : option (nd bool)) : result (list axes) :=
  match xs with
  | [] => Err ValueError
  | _ => mapM (fun t => do l <- plot_line p (fst t) (snd t) kws mask; Ok (Drew l :: configure (fst t) (snd t))) (combine xs ys)
  end.
Definition peaks_plot (p : peaks) (x y : type_arg) (kws : dict kw) (mask : option (nd bool)) : result (list axes) :=
  do t <- prepare_types x y; plot_types p (fst t) (snd t) kws mask.

(** ** PeaksSuite.plot *)
(** A value of the argument plot_kwargs: a str, None, a list or tuple, another object. *)
Inductive kwarg : Set := AStr (s : string) | ANone | ASeq (l : list kw) | AObj (text : string).
(** _prepare_plot_kwargs, peakssuite.py:312-344: the dict of one member. *)
Definition member_value (index : nat) (v : kwarg) : result kw :=
  match v with
  | AStr s => Ok (KStr s)
  | ANone => Ok KNone
  | ASeq l => match nth_error l index with Some k => Ok k | None => Err IndexError end
  | AObj _ => Err NotImplementedError
  end.
Definition member_kwargs (kwargs : dict kwarg) (index : nat) : result (dict kw) :=
  mapM (fun kv => do k <- member_value index (snd kv); Ok (fst kv, k)) kwargs.
Definition prepare_plot_kwargs (kwargs : dict kwarg) (n : nat) : result (list (dict kw)) :=
  mapM (member_kwargs kwargs) (range n).

(** One member drawn on the axes in turn, peakssuite.py:284-301; [check] is false for the first
    member (no look at the labels).  The dict is shared by the axes, so a label once set to None
    stays None. *)
Definition is_labelled (l : option kw) (ax : axes) : bool :=
  match l with Some (KStr s) => existsb (String.eqb s) (legend ax) | _ => false end.
Fixpoint draw_member (check : bool) (p : peaks) (label : option kw) (kws : dict kw) (mask : option (nd bool))
    (types : list (string * string)) (axs : list axes) : list axes * result unit :=
  match types, axs with
  | (xt, yt) :: types', ax :: axs' =>
      let kws := if check && is_labelled label ax then dict_set "label" KNone kws else kws in
      match plot_line p xt yt kws mask with
      | Err e => (axs, Err e)
      | Ok l =>
          let (rest, r) := draw_member check p label kws mask types' axs' in
          ((ax ++ [Drew l]) :: rest, r)
      end
  | _, _ => (axs, Ok tt)
  end.
(** peakssuite.py:289-301 *)
Fixpoint draw_rest (types : list (string * string)) (ps : list peaks) (kws : list (dict kw)) (masks : list (option (nd bool)))
    (axs : list axes) : list axes * result unit :=
  match ps, kws, masks with
  | p :: ps', k :: kws', m :: masks' =>
      match draw_member true p (assoc "label" k) k m types axs with
      | (axs', Err e) => (axs', Err e)
      | (axs', Ok _) => draw_rest types ps' kws' masks' axs'
      end
  | _, _, _ => (axs, Ok tt)
  end.
Fixpoint configure_all (types : list (string * string)) (axs : list axes) : list axes :=
  match types, axs with
  | (xt, yt) :: types', ax :: axs' => (ax ++ configure xt yt) :: configure_all types' axs'
  | _, _ => axs
  end.
(** peakssuite.py:253-267: what is settled before anything is drawn *)
Definition prepare_suite (n : nat) (x y : type_arg) (kwargs : dict kwarg) (mask : option (list (option (nd bool))))
  : result ((list string * list string) * list (dict kw) * list (option (nd bool))) :=
  do t <- prepare_types x y;
  do k <- prepare_plot_kwargs kwargs n;
  do m <- match mask with
          | None => Ok (repeat None n)
          | Some m => if List.length m =? n then Ok m else Err IndexError
          end;
  Ok (t, k, m).
(** PeaksSuite.plot, peakssuite.py:218-306.  [given] are the caller's axes (a single Axes is
    put in a list; they are taken to be different objects).  Result: the caller's axes afterwards
    and the new axes returned, if any. *)
Definition suite_plot (ps : list peaks) (x y : type_arg) (given : option (list axes)) (kwargs : dict kwarg)
    (mask : option (list (option (nd bool)))) : list axes * result (option (list axes)) :=
  let mine := match given with None => [] | Some l => l end in
  match prepare_suite (List.length ps) x y kwargs mask with
  | Err e => (mine, Err e)
  | Ok ((xs, ys), k, m) =>
      let types := combine xs ys in
      match ps, k, m with
      | p0 :: ps', k0 :: k', m0 :: m' =>
          let '(axs, r) :=
            match given with
            | None => match plot_types p0 xs ys k0 m0 with Ok axs => (axs, Ok tt) | Err e => ([], Err e) end
            | Some l =>
                if List.length l =? List.length xs then draw_member false p0 (assoc "label" k0) k0 m0 types l
                else (l, Err IndexError)
            end in
          match r with
          | Err e => (match given with None => [] | Some _ => axs end, Err e)
          | Ok _ =>
              let (axs', r') := draw_rest types ps' k' m' axs in
              match r' with
              | Err e => (match given with None => [] | Some _ => axs' end, Err e)
              | Ok _ =>
                  let final := configure_all types axs' in
                  match given with
                  | None => ([], Ok (Some final))
                  | Some _ => (final, Ok None)
                  end
              end
          end
      | _, _, _ => (mine, Err IndexError)
      end
  end.
