(* Model of /repo/swprocess/peakssuite.py without plotting and .max parsing. *)
From Verif Require Export PeaksModel.
Local Open Scope nat_scope.
Local Open Scope list_scope.
Local Open Scope py_scope.

(** * Suites *)

(** PeaksSuite, peakssuite.py:37-59: self.peaks and self.ids.  [M] is the type of
    members: Peaks objects themselves, or references to them. *)
Record suite (M : Type) : Type := mkSuite { members : list M; ids : list string }.
Arguments mkSuite {M}. Arguments members {M}. Arguments ids {M}.

Section Suites.
  Context {M : Type}.
  (** m.identifier *)
  Variable ident : M -> string.

  (** __init__, peakssuite.py:37-53. *)
  Definition new_suite (m : M) : suite M := mkSuite [m] [ident m].
  (** append, peakssuite.py:61-81 (the argument is a Peaks object, so
      _check_input passes). *)
  Definition append (s : suite M) (m : M) : suite M * result unit :=
    if existsb (String.eqb (ident m)) (ids s) then (s, Err KeyError)
    else (mkSuite (members s ++ [m]) (ids s ++ [ident m]), Ok tt).
  Fixpoint append_all (s : suite M) (ms : list M) : result (suite M) :=
    match ms with
    | [] => Ok s
    | m :: t => let (s', r) := append s m in do _ <- r; append_all s' t
    end.
  (** from_peaks, peakssuite.py:878-899. *)
  Definition from_peaks (ms : list M) : result (suite M) :=
    match ms with
    | [] => Err IndexError
    | m :: t => append_all (new_suite m) t
    end.
  (** from_peakssuite, peakssuite.py:901-925. *)
  Fixpoint append_suites (s : suite M) (ss : list (suite M)) : result (suite M) :=
    match ss with
    | [] => Ok s
    | s' :: t => do s1 <- append_all s (members s'); append_suites s1 t
    end.
  Definition from_peakssuite (ss : list (suite M)) : result (suite M) :=
    match ss with
    | [] => Err IndexError
    | s :: t => do s1 <- from_peaks (members s); append_suites s1 t
    end.
End Suites.

(** * Objects and references *)

(** The Peaks objects and the suites of a program; suites hold references
    (positions in [objs]). *)
Record world : Type := mkWorld { objs : list peaks; suites : list (suite nat) }.
Definition dummy : peaks := mkPeaks "" [] (ND (S1 0) []).
Definition deref (w : world) (r : nat) : peaks := nth r (objs w) dummy.
Definition ident_of (w : world) (r : nat) : string := identifier (deref w r).
Fixpoint set_nth {A} (n : nat) (a : A) (l : list A) : list A :=
  match l, n with
  | [], _ => []
  | _ :: t, O => a :: t
  | b :: t, S n' => b :: set_nth n' a t
  end.
Definition set_obj (w : world) (r : nat) (p : peaks) : world :=
  mkWorld (set_nth r p (objs w)) (suites w).
Definition add_suite (w : world) (s : suite nat) : world :=
  mkWorld (objs w) (suites w ++ [s]).

(** peak.reject_...() for every member, peakssuite.py:83-123; stops at the
    first exception. *)
Fixpoint reject_refs (w : world) (rs : list nat) (x : rejection) : world * result unit :=
  match rs with
  | [] => (w, Ok tt)
  | r :: t =>
      let (p, res) := do_reject (deref w r) x in
      match res with
      | Ok _ => reject_refs (set_obj w r p) t x
      | Err e => (set_obj w r p, Err e)
      end
  end.

(** What a program can do. *)
Inductive action : Type :=
| NewPeaks (p : peaks)                    (* build a Peaks object *)
| NewSuite (r : nat)                      (* PeaksSuite(peaks) *)
| Append (s r : nat)                      (* suite.append(peaks) *)
| FromPeaks (rs : list nat)               (* PeaksSuite.from_peaks([...]) *)
| Merge (ss : list nat)                   (* PeaksSuite.from_peakssuite([...]) *)
| SuiteReject (s : nat) (x : rejection)   (* suite.reject_...() *)
| PeaksReject (r : nat) (x : rejection)   (* peaks.reject_...() *)
| Rename (r : nat) (name : string).       (* peaks.identifier = name *)

Definition no_suite : suite nat := mkSuite [] [].
Definition the_suite (w : world) (s : nat) : suite nat := nth s (suites w) no_suite.
(** The action only uses objects and suites that exist (Python variables always
    do); otherwise nothing happens. *)
Definition exists_all (w : world) (a : action) : bool :=
  match a with
  | NewPeaks _ => true
  | NewSuite r | PeaksReject r _ | Rename r _ => r <? List.length (objs w)
  | Append s r => (s <? List.length (suites w)) && (r <? List.length (objs w))
  | FromPeaks rs => forallb (fun r => r <? List.length (objs w)) rs
  | Merge ss => forallb (fun s => s <? List.length (suites w)) ss
  | SuiteReject s _ => s <? List.length (suites w)
  end.
Definition act (w : world) (a : action) : world * result unit :=
  if negb (exists_all w a) then (w, Ok tt) else
  match a with
  | NewPeaks p => (mkWorld (objs w ++ [p]) (suites w), Ok tt)
  | NewSuite r => (add_suite w (new_suite (ident_of w) r), Ok tt)
  | Append s r =>
      let (s', res) := append (ident_of w) (the_suite w s) r in
      (mkWorld (objs w) (set_nth s s' (suites w)), res)
  | FromPeaks rs =>
      match from_peaks (ident_of w) rs with
      | Ok s => (add_suite w s, Ok tt)
      | Err e => (w, Err e)
      end
  | Merge ss =>
      match from_peakssuite (ident_of w) (map (the_suite w) ss) with
      | Ok s => (add_suite w s, Ok tt)
      | Err e => (w, Err e)
      end
  | SuiteReject s x => reject_refs w (members (the_suite w s)) x
  | PeaksReject r x =>
      let (p, res) := do_reject (deref w r) x in (set_obj w r p, res)
  | Rename r name =>
      let p := deref w r in
      (set_obj w r (mkPeaks name (fields p) (valid p)), Ok tt)
  end.
Definition run (w : world) (l : list action) : world :=
  fold_left (fun w a => fst (act w a)) l w.
Definition empty_world : world := mkWorld [] [].

(** * JSON files of suites *)

(** to_json, peakssuite.py:731-749: the states of the file and the outcome. *)
Fixpoint suite_to_json_from (app : bool) (ps : list peaks) (f : file)
  : list file * result unit :=
  match ps with
  | [] => ([], Ok tt)
  | p :: t =>
      let (st, r) := to_json p app f in
      match r with
      | Err e => (st, Err e)
      | Ok _ => let (st', r') := suite_to_json_from true t (final f st) in (st ++ st', r')
      end
  end.
Definition suite_to_json (ps : list peaks) (f : file) : list file * result unit :=
  suite_to_json_from false ps f.
(** from_dict, peakssuite.py:751-775, on a list of dicts. *)
Definition entry_peaks (kv : string * json) : result peaks :=
  match snd kv with
  | JObj d => snd (PeaksModel.from_dict d (fst kv))
  | _ => Err AttributeError
  end.
Definition doc_peaks (j : json) : result (list peaks) :=
  match j with
  | JObj kv => mapM entry_peaks kv
  | _ => Err AttributeError
  end.
Definition suite_from_dicts (js : list json) : result (suite peaks) :=
  do pss <- mapM doc_peaks js;
  from_peaks identifier (concat pss).
(** from_json, peakssuite.py:777-805, on a list of files. *)
Definition suite_from_json (fs : list file) : result (suite peaks) :=
  do js <- mapM json_load fs; suite_from_dicts js.

(** __eq__ between two suites, peakssuite.py:933-945. *)
Fixpoint all_eq (ps qs : list peaks) : result bool :=
  match ps, qs with
  | p :: ps', q :: qs' =>
      do b <- peaks_eq p q; if b then all_eq ps' qs' else Ok false
  | _, _ => Ok true
  end.
Definition suite_eq (s t : suite peaks) : result bool :=
  if negb (List.length (members s) =? List.length (members t)) then Ok false
  else all_eq (members s) (members t).

(** * calc_resolution_limits, peakssuite.py:125-174 *)
Definition line : Type := list flt * list flt.
Definition two_pi_over (lim : flt) (ys : list flt) : list flt :=
  map (fun _ => fdiv (fmul (fmul f1 f2) np_pi) lim) ys.
Definition const_of (lim : flt) (ys : list flt) : list flt := map (fun _ => fmul f1 lim) ys.
Definition limit_line (xtype attribute ytype : string) (lim : flt) (xs ys : list flt)
  : result line :=
  let is a b := String.eqb a b in
  if is xtype "frequency"%string then
    if is attribute "wavelength"%string then
      if is ytype "velocity"%string then Ok (xs, map (fun x => fmul x lim) xs)
      else if is ytype "wavenumber"%string then Ok (xs, two_pi_over lim ys)
      else if is ytype "slowness"%string then Ok (xs, map (fun x => fdiv f1 (fmul x lim)) xs)
      else Err NotImplementedError
    else if is attribute "wavenumber"%string then
      if is ytype "velocity"%string
      then Ok (xs, map (fun x => fdiv (fmul (fmul x np_pi) f2) lim) xs)
      else if is ytype "wavenumber"%string then Ok (xs, const_of lim ys)
      else if is ytype "slowness"%string
      then Ok (xs, map (fun x => fdiv lim (fmul (fmul f2 np_pi) x)) xs)
      else Err NotImplementedError
    else Err NotImplementedError
  else if is xtype "wavelength"%string then
    if is attribute "wavelength"%string then
      if is ytype "velocity"%string then Ok (const_of lim ys, ys)
      else if is ytype "slowness"%string then Ok (const_of lim ys, ys)
      else Err NotImplementedError
    else if is attribute "wavenumber"%string then
      if is ytype "velocity"%string then Ok (two_pi_over lim ys, ys)
      else if is ytype "slowness"%string then Ok (two_pi_over lim ys, ys)
      else Err NotImplementedError
    else Err NotImplementedError
  else Err NotImplementedError.
Definition calc_resolution_limits (xtype attribute ytype : string) (limits : flt * flt)
           (xs ys : list flt) : result (line * line) :=
  do l1 <- limit_line xtype attribute ytype (fst limits) xs ys;
  do l2 <- limit_line xtype attribute ytype (snd limits) xs ys;
  Ok (l1, l2).

(** * to_array, peakssuite.py:590-631 *)

(** scipy.interpolate.interp1d(x, y, bounds_error=False, fill_value=nan) with the
    default kind "linear": sorts by x (stable), evaluates with np.interp and puts
    NaN outside the range.  ValueError when the lengths differ or there is no
    point (releases of scipy that accept empty arrays raise it at the evaluation
    instead, where to_array does not catch it). *)
Fixpoint insert_pt (a : flt * flt) (l : list (flt * flt)) : list (flt * flt) :=
  match l with
  | [] => [a]
  | b :: t => if flt_lt (fst b) (fst a) then b :: insert_pt a t else a :: l
  end.
Definition sort_pts (l : list (flt * flt)) : list (flt * flt) := fold_right insert_pt [] l.
(** One piece of np.interp: where an infinite value makes NaN it tries from the other end of the piece, and then takes the
    value of both ends if it is the same. *)
Definition interp_piece (a b : flt * flt) (v : flt) : flt :=
  let slope := fdiv (fsub (snd b) (snd a)) (fsub (fst b) (fst a)) in
  let r := fadd (fmul slope (fsub v (fst a))) (snd a) in
  let r' := fadd (fmul slope (fsub v (fst b))) (snd b) in
  if is_nan r then if is_nan r' && flt_eq (snd a) (snd b) then snd a else r' else r.
(** np.interp for v inside the range of the sorted points, after [a]. *)
Fixpoint interp_from (a : flt * flt) (l : list (flt * flt)) (v : flt) : flt :=
  match l with
  | [] => snd a
  | b :: t =>
      if flt_le (fst b) v then interp_from b t v
      else if flt_eq (fst a) v then snd a
      else interp_piece a b v
  end.
Definition interp1d (x y : list flt) : result (flt -> flt) :=
  if negb (List.length x =? List.length y) then Err ValueError
  else match sort_pts (combine x y) with
       | [] => Err ValueError
       | a :: t =>
           Ok (fun v =>
                 if is_nan v then NaN
                 else if flt_lt v (fst a) then NaN
                 else if flt_lt (fst (last t a)) v then NaN
                 else interp_from a t v)
       end.
Definition array_row (xtype ytype : string) (xx : list flt) (p : peaks) : result (list flt) :=
  do x <- simplify_mpeaks p xtype;
  do y <- simplify_mpeaks p ytype;
  if existsb is_nan x || existsb is_nan y then Err ValueError
  else match interp1d x y with
       | Err ValueError => Ok (map (fun _ => NaN) xx)
       | Err e => Err e
       | Ok f => Ok (map f xx)
       end.
Definition to_array (ps : list peaks) (xtype ytype : string) (xx : list flt)
  : result (list flt * list (list flt)) :=
  do rs <- mapM (array_row xtype ytype xx) ps; Ok (xx, rs).

(** * _drop, peakssuite.py:642-729 *)

(** np.delete(l, idx) *)
Fixpoint delete_from {A} (i : nat) (idx : list nat) (l : list A) : list A :=
  match l with
  | [] => []
  | a :: t => if existsb (Nat.eqb i) idx then delete_from (S i) idx t
              else a :: delete_from (S i) idx t
  end.
Definition delete {A} (idx : list nat) (l : list A) : list A := delete_from 0 idx l.
(** data_matrix.T of a matrix with [nc] columns *)
Definition transpose (nc : nat) (m : list (list flt)) : list (list flt) :=
  map (fun j => map (fun r => nth j r NaN) m) (range nc).
Definition count_nan (l : list flt) : nat := List.length (filter is_nan l).
Definition total {A} (m : list (list A)) : nat := List.length (concat m).
(** _drop_indices, peakssuite.py:715-729; [pct] and [cnt] are the limits. *)
Definition drop_test (pct : Qc) (cnt : Z) (row : list flt) : bool :=
  let n_tot := List.length row in
  let n_num := n_tot - count_nan row in
  (Z.of_nat n_num <? cnt)%Z || Qcltb (QcN n_num / QcN n_tot)%Qc pct.
Definition drop_indices (m : list (list flt)) (pct : Qc) (cnt : Z) : list nat :=
  if total m =? 0 then []
  else map fst (filter (fun ir => drop_test pct cnt (snd ir)) (combine (range (List.length m)) m)).
(** (i_nans - r_nans) / (i_nums - r_nums + 1) *)
Definition nans (m : list (list flt)) : nat := count_nan (concat m).
Definition utility (before after : list (list flt)) : Qc :=
  let nums m := (Z.of_nat (total m) - Z.of_nat (nans m))%Z in
  (QcZ (Z.of_nat (nans before) - Z.of_nat (nans after))
   / QcZ (nums before - nums after + 1))%Qc.
Section Drop.
  Variables (pct_row pct_col : Qc) (cnt : Z).
  Definition drop_option_1 (xx : list flt) (m : list (list flt)) : list flt * list (list flt) :=
    let cols := drop_indices (transpose (List.length xx) m) pct_col cnt in
    let m1 := map (delete cols) m in
    let rws := drop_indices m1 pct_row 0 in
    (delete cols xx, delete rws m1).
  Definition drop_option_2 (xx : list flt) (m : list (list flt)) : list flt * list (list flt) :=
    let rws := drop_indices m pct_row 0 in
    let m2 := delete rws m in
    let cols := drop_indices (transpose (List.length xx) m2) pct_col cnt in
    (delete cols xx, map (delete cols) m2).
  Definition drop (xx : list flt) (m : list (list flt)) : list flt * list (list flt) :=
    let o1 := drop_option_1 xx m in
    let o2 := drop_option_2 xx m in
    if Qcltb (utility m (snd o2)) (utility m (snd o1)) then o1 else o2.
End Drop.

(** * statistics, peakssuite.py:536-588 *)

Definition fsum (l : list flt) : flt := fold_left fadd l f0.
Definition nums (l : list flt) : list flt := filter (fun x => negb (is_nan x)) l.
(** np.nanmean of one column *)
Definition nanmean (l : list flt) : flt :=
  let v := nums l in fdiv (fsum v) (Fin (QcN (List.length v))).
Section Statistics.
  (** Square root and np.corrcoef are left open. *)
  Variable fsqrt : flt -> flt.
  Context {C : Type} (corrcoef : list (list flt) -> C).
  (** np.nanstd(ddof=1) of one column; no degree of freedom gives NaN *)
  Definition nanstd (l : list flt) : flt :=
    let v := nums l in
    let m := nanmean l in
    if List.length v <=? 1 then NaN
    else fsqrt (fdiv (fsum (map (fun x => fmul (fsub x m) (fsub x m)) v))
                     (Fin (QcZ (Z.of_nat (List.length v) - 1)))).
  (** mean_substitution, peakssuite.py:580-584 *)
  Definition substitute (nc : nat) (m : list (list flt)) : list (list flt) :=
    let means := map nanmean (transpose nc m) in
    map (fun r => map2 (fun x mu => if is_nan x then mu else x) r means) m.
  Definition statistics (ps : list peaks) (xtype ytype : string) (xx : list flt)
             (ignore_corr : bool) (cnt : Z) (mean_substitution : bool)
    : result (list flt * list flt * list flt * option C) :=
    if List.length ps <? 3 then Err ValueError else
    do a <- to_array ps xtype ytype xx;
    let (xx', m) := drop (Q2Qc (1 # 100)) (Q2Qc (1 # 100)) cnt (fst a) (snd a) in
    let nc := List.length xx' in
    let m' := if mean_substitution then substitute nc m else m in
    Ok (xx', map nanmean (transpose nc m), map nanstd (transpose nc m),
        if ignore_corr then None else Some (corrcoef (transpose nc m'))).
End Statistics.

(** * interactive_trimming, peakssuite.py:346-534, without the drawing *)

(** One call of fig.ginput(2): the points it returns and the axes in which
    the on_click handler registered a button press. *)
Record gesture : Type := mkGesture { points : list (flt * flt); clicked : list nat }.
Record box : Type := mkBox { bx : flt * flt; by_ : flt * flt; baxis : nat }.
(** _draw_box, peakssuite.py:492-534: repeated until two clicks on the same
    axes; unpacking other than two points raises ValueError. *)
Fixpoint draw_box (gs : list gesture) : option (result box * list gesture) :=
  match gs with
  | [] => None                                   (* still waiting for the user *)
  | g :: t =>
      match points g with
      | [(x1, y1); (x2, y2)] =>
          match clicked g with
          | [a; b] => if a =? b
                      then Some (Ok (mkBox (pymin (x1, x2), pymax (x1, x2))
                                           (pymin (y1, y2), pymax (y1, y2)) a), t)
                      else draw_box t
          | _ => draw_box t
          end
      | _ => Some (Err ValueError, t)
      end
  end.
(** The answers typed by the user: anything but 0, 1 and 2 asks again. *)
Inductive decision : Set := Quit | Continue | Undo.
Fixpoint next_decision (ans : list string) : option (decision * list string) :=
  match ans with
  | [] => None                                   (* still waiting for the user *)
  | a :: t =>
      if String.eqb a "0" then Some (Quit, t)
      else if String.eqb a "1" then Some (Continue, t)
      else if String.eqb a "2" then Some (Undo, t)
      else next_decision t
  end.
(** The masks of all members for one box, peakssuite.py:420-424. *)
Definition box_masks (xt yt : list string) (ps : list peaks) (b : box)
  : result (list (nd bool)) :=
  mapM (fun p =>
          match nth_error xt (baxis b), nth_error yt (baxis b) with
          | Some x, Some y => box_mask p x (bx b) y (by_ b)
          | _, _ => Err IndexError
          end) ps.
Definition nd_or (a b : nd bool) : nd bool := ND (shp a) (map2 orb (dat a) (dat b)).
Definition any_true (a : nd bool) : bool := existsb (fun b => b) (dat a).
Definition reject_all (ps : list peaks) (ms : list (nd bool)) : list peaks :=
  map2 (fun p m => fst (reject p m)) ps ms.
Inductive outcome : Type := Finished | Waiting | Raised (e : exn).
(** The loop, peakssuite.py:408-489.  [acc] is rejection_bool_arrays.  [fuel]
    bounds the number of boxes; there are at most as many as gestures. *)
Fixpoint trim_loop (fuel : nat) (xt yt : list string) (ps : list peaks) (acc : list (nd bool))
         (gs : list gesture) (ans : list string) : list peaks * outcome :=
  match fuel with
  | O => (ps, Waiting)
  | S fuel' =>
      match draw_box gs with
      | None => (ps, Waiting)
      | Some (Err e, _) => (ps, Raised e)
      | Some (Ok b, gs') =>
          match box_masks xt yt ps b with
          | Err e => (ps, Raised e)
          | Ok ms =>
              let acc' := map2 nd_or acc ms in
              if existsb any_true ms then trim_loop fuel' xt yt ps acc' gs' ans
              else match next_decision ans with
                   | None => (ps, Waiting)
                   | Some (d, ans') =>
                       let ps' := match d with
                                  | Quit | Continue => reject_all ps acc'
                                  | Undo => ps
                                  end in
                       match d with
                       | Quit => (ps', Finished)
                       | _ => trim_loop fuel' xt yt ps' (map (fun p => zeros_like (valid p)) ps')
                                        gs' ans'
                       end
                   end
          end
      end
  end.
Definition interactive_trimming (xt yt : list string) (ps : list peaks)
           (gs : list gesture) (ans : list string) : list peaks * outcome :=
  if negb (List.length xt =? List.length yt) then (ps, Raised IndexError)
  else trim_loop (S (List.length gs)) xt yt ps (map (fun p => zeros_like (valid p)) ps) gs ans.
