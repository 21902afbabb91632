(* What a drawing of resolution limits must show. *)
From Verif Require Export LimitsPlotModel SuiteSpec.
Local Open Scope string_scope.
Local Open Scope nat_scope.
Local Open Scope list_scope.

(** [xs] divides the interval from [a] to [b] evenly into [n] points. *)
Definition evenly (a b : Qc) (n : nat) (xs : list Qc) : Prop :=
  List.length xs = n /\ nth 0 xs 0%Qc = a /\ nth (n - 1) xs 0%Qc = b /\
  forall i, i < n -> nth i xs 0%Qc = (a + QcN i * (b - a) / QcN (n - 1))%Qc.
(** Every point of the line has this value of the attribute (wavelength or wavenumber). *)
Definition along (attribute xt yt : string) (lim : Qc) (l : artist) : Prop :=
  Forall2 (fun x y => limited_by attribute xt yt x y = Fin lim) (px l) (py l).
(** The label the user asks for, or "limit". *)
Definition first_label (kws : dict kw) : string :=
  match assoc "label" kws with
  | Some (KStr s) | Some (KObj s) => s
  | Some KNone => "_child"
  | None => "limit"
  end.
