(* Model of PeaksSuite.plot_statistics (/repo/swprocess/peakssuite.py:633-640). *)
From Verif Require Export PlotModel.
Local Open Scope string_scope.
Local Open Scope nat_scope.
Local Open Scope list_scope.
Local Open Scope py_scope.

(** One call of ax.errorbar: points, half-lengths of the vertical bars, options. *)
Record bars : Type := mkBars { bx : list flt; by_ : list flt; bhalf : list flt; bstyle : dict kw }.
(** peakssuite.py:636-638 *)
Definition errorbar_defaults : dict kw :=
  [("linestyle", KStr ""); ("color", KStr "k"); ("label", KNone); ("marker", KStr "o");
   ("markerfacecolor", KStr "k"); ("markersize", KObj "0.5"); ("capsize", KObj "2"); ("zorder", KObj "20")].
(** Axes.errorbar(x, y, yerr=yerr, **kws) of matplotlib.  An option that repeats an argument
    already given is a TypeError; x and y of different lengths, bars that are neither one for all
    nor one per point, and negative bars are a ValueError.  The other options are taken to be
    accepted, and what was drawn before (an Axes is the list of its error bars) is kept. *)
Definition errorbar (ax : list bars) (x y yerr : list flt) (kws : dict kw) : result (list bars) :=
  if existsb (fun kv => existsb (String.eqb (fst kv)) ["x"; "y"; "yerr"]) kws then Err TypeError
  else if negb (List.length x =? List.length y) then Err ValueError
  else if negb ((List.length yerr =? List.length y) || (List.length yerr =? 1)) then Err ValueError
  else if existsb (fun e => flt_lt e f0) yerr then Err ValueError
  else Ok (ax ++ [mkBars x y (if List.length yerr =? List.length y then yerr
                              else repeat (hd NaN yerr) (List.length y)) kws]).
(** plot_statistics, peakssuite.py:633-640 *)
Definition plot_statistics (ax : list bars) (xx mean stddev : list flt) (errorbar_kwargs : option (dict kw))
  : result (list bars) :=
  let user := match errorbar_kwargs with None => [] | Some d => d end in
  errorbar ax xx mean stddev (merge errorbar_defaults user).
