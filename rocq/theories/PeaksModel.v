(* Model of /repo/swprocess/peaks.py (plotting: PlotModel.v; .max parsing: MaxModel.v).

   General simplifications:
   - arrays have one or two dimensions and are stored row by row, as numpy
     does; a one-dimensional mask on a two-dimensional array, with which numpy
     selects rows, raises IndexError here;
   - numbers are extended rationals ([flt]) without rounding;
   - the keyword name "valid" (which would overwrite the mask attribute) is not
     given to the constructor; names that collide with methods of the class are
     not given either. *)
From Coq Require Export String.
From Verif Require Export Py Num Flt.
Open Scope list_scope.
Open Scope nat_scope.

(** * Arrays *)

(** ndarray.shape for ndim = 1 and ndim = 2 (rows, columns). *)
Inductive shape : Set := S1 (n : nat) | S2 (r c : nat).
Definition size (s : shape) : nat :=
  match s with S1 n => n | S2 r c => r * c end.
Definition shape_eqb (s t : shape) : bool :=
  match s, t with
  | S1 n, S1 m => n =? m
  | S2 r c, S2 r' c' => (r =? r') && (c =? c')
  | _, _ => false
  end.
(** An array: shape and entries in row-major order. *)
Record nd (A : Type) : Type := ND { shp : shape; dat : list A }.
Arguments ND {A}. Arguments shp {A}. Arguments dat {A}.

Definition nd_map {A B} (f : A -> B) (a : nd A) : nd B := ND (shp a) (map f (dat a)).
(** numpy broadcasting: the entries of [a] repeated to fill the shape [s], if possible, and
    the shape to which two arrays are repeated. *)
Definition stretch {A} (s : shape) (a : nd A) : option (list A) :=
  if shape_eqb (shp a) s then Some (dat a)
  else match shp a, s with
       | S1 n, S1 m => if n =? 1 then Some (flat_map (fun x => repeat x m) (dat a)) else None
       | S1 n, S2 r c =>
           if n =? c then Some (List.concat (repeat (dat a) r))
           else if n =? 1 then Some (flat_map (fun x => repeat x (r * c)) (dat a)) else None
       | S2 r c, S2 r' c' =>
           if (r =? 1) && (c =? c') then Some (List.concat (repeat (dat a) r'))
           else if (r =? r') && (c =? 1) then Some (flat_map (fun x => repeat x c') (dat a))
           else if (r =? 1) && (c =? 1) then Some (flat_map (fun x => repeat x (r' * c')) (dat a))
           else None
       | S2 _ _, S1 _ => None
       end.
Definition wider (n m : nat) : nat := if n =? 1 then m else n.
Definition wider_shape (s t : shape) : shape :=
  match s, t with
  | S1 n, S1 m => S1 (wider n m)
  | S1 n, S2 r c => S2 r (wider n c)
  | S2 r c, S1 m => S2 r (wider c m)
  | S2 r c, S2 r' c' => S2 (wider r r') (wider c c')
  end.
Definition nd_map2 {A B C} (f : A -> B -> C) (a : nd A) (b : nd B) : result (nd C) :=
  let s := wider_shape (shp a) (shp b) in
  match stretch s a, stretch s b with
  | Some x, Some y => Ok (ND s (map2 f x y))
  | _, _ => Err ValueError
  end.
(** [a[mask]] : the entries whose mask is true, one-dimensional. *)
Definition nd_select {A} (mask : nd bool) (a : nd A) : result (list A) :=
  if shape_eqb (shp mask) (shp a) then Ok (select (dat mask) (dat a))
  else Err IndexError.
(** [a[i, j]] of a two-dimensional array with [c] columns. *)
Definition at2 {A} (d : A) (c : nat) (l : list A) (i j : nat) : A := nth (i * c + j) l d.

(** * Peaks objects *)

(** peaks.py:59-91.  [fields] holds the arrays self._name in the order of
    self.attrs ([attrs] below), [valid] is self._valid. *)
Record peaks : Type := mkPeaks {
  identifier : string;
  fields : list (string * nd flt);
  valid : nd bool
}.
Definition attrs (p : peaks) : list string := map fst (fields p).
Definition set_valid (p : peaks) (v : nd bool) : peaks :=
  mkPeaks (identifier p) (fields p) v.

Fixpoint assoc {A} (k : string) (l : list (string * A)) : option A :=
  match l with
  | [] => None
  | (k', v) :: t => if String.eqb k k' then Some v else assoc k t
  end.

Local Open Scope string_scope.
(** Names for which `_name` is a read-only property, peaks.py:121-139:
    setattr raises AttributeError. *)
Definition computed (k : string) : bool :=
  (k =? "slowness") || (k =? "wavelength") || (k =? "wavenumber").
(** Names for which `name` is a property reading `_name[_valid]`,
    peaks.py:93-115. *)
Definition propertied (k : string) : bool :=
  (k =? "frequency") || (k =? "velocity") || (k =? "azimuth")
  || (k =? "ellipticity") || (k =? "noise") || (k =? "power").

(** __init__, peaks.py:59-91; the arguments are already arrays. *)
Definition new_peaks (frequency velocity : nd flt) (ident : string)
           (kwargs : list (string * nd flt)) : result peaks :=
  if existsb (fun kv => computed (fst kv)) kwargs then Err AttributeError
  else Ok (mkPeaks ident
                   (("frequency", frequency) :: ("velocity", velocity) :: kwargs)
                   (nd_map (fun v => negb (is_nan v)) velocity)).

(** np.pi as the exact value of the double nearest to pi. *)
Definition np_pi : flt := Fin (Q2Qc (884279719003555 # 281474976710656)).
Definition f2 : flt := Fin (Q2Qc 2).

Definition field_of (p : peaks) (k : string) : result (nd flt) :=
  match assoc k (fields p) with Some a => Ok a | None => Err AttributeError end.
Local Open Scope py_scope.
(** getattr(self, f"_{name}"), including the properties _slowness,
    _wavelength and _wavenumber, peaks.py:121-139. *)
Definition stored (p : peaks) (k : string) : result (nd flt) :=
  if k =? "slowness" then
    do v <- field_of p "velocity"; Ok (nd_map (fdiv f1) v)
  else if k =? "wavelength" then
    do v <- field_of p "velocity"; do f <- field_of p "frequency"; nd_map2 fdiv v f
  else if k =? "wavenumber" then
    do f <- field_of p "frequency"; do v <- field_of p "velocity";
    nd_map2 fdiv (nd_map (fmul (fmul f2 np_pi)) f) v
  else field_of p k.
(** getattr(self, name), peaks.py:93-139. *)
Definition masked (p : peaks) (k : string) : result (list flt) :=
  do a <- field_of p k; nd_select (valid p) a.
Definition public (p : peaks) (k : string) : result (list flt) :=
  if k =? "slowness" then
    do v <- masked p "velocity"; Ok (map (fdiv f1) v)
  else if k =? "wavelength" then
    do v <- masked p "velocity"; do f <- masked p "frequency";
    if (List.length v =? List.length f)%nat then Ok (map2 fdiv v f) else Err ValueError
  else if k =? "wavenumber" then
    do f <- masked p "frequency"; do v <- masked p "velocity";
    if (List.length f =? List.length v)%nat
    then Ok (map2 fdiv (map (fmul (fmul f2 np_pi)) f) v) else Err ValueError
  else if propertied k then masked p k
  else Err AttributeError.

(** * Rejection *)

(** np.greater / np.less with where=mask, out=zeros: [mask] false leaves the
    entry of [out] alone.  The mask and the values are repeated to the shape of [out],
    which is never repeated itself. *)
Definition where_set (test : flt -> bool) (mask out : nd bool) (a : nd flt)
  : result (nd bool) :=
  match stretch (shp out) mask, stretch (shp out) a with
  | Some m, Some x =>
      Ok (ND (shp out)
             (map2 (fun mo x => if fst mo : bool then test x else snd mo)
                   (map2 pair m (dat out)) x))
  | _, _ => Err ValueError
  end.
Definition zeros_like {A} (a : nd A) : nd bool := nd_map (fun _ => false) a.

(** _reject, peaks.py:464-466. *)
Definition reject (p : peaks) (b : nd bool) : peaks * result unit :=
  if shape_eqb (shp (valid p)) (shp b)
  then (set_valid p (ND (shp b) (map2 (fun v x => if x : bool then false else v) (dat (valid p)) (dat b))), Ok tt)
  else (p, Err IndexError).

(** The array of rejections computed by reject_limits_outside,
    peaks.py:392-408. *)
Definition limits_mask (p : peaks) (k : string) (lo hi : option flt) : result (nd bool) :=
  do a <- stored p k;
  let z := zeros_like a in
  match lo, hi with
  | None, None => Ok z                      (* warning only *)
  | None, Some mx => where_set (fun x => flt_lt mx x) (valid p) z a
  | Some mn, None => where_set (fun x => flt_lt x mn) (valid p) z a
  | Some mn, Some mx =>
      do b <- where_set (fun x => flt_lt mx x) (valid p) z a;
      do w <- nd_map2 (fun v x => v && negb x) (valid p) b;
      where_set (fun x => flt_lt x mn) w b a
  end.
(** reject_limits_outside, peaks.py:368-410. *)
Definition reject_limits (p : peaks) (k : string) (lo hi : option flt)
  : peaks * result unit :=
  match limits_mask p k lo hi with
  | Ok b => reject p b
  | Err e => (p, Err e)
  end.

(** Python's min and max of a pair: the first argument wins unless the
    second one compares strictly smaller (greater). *)
Definition pymin (ab : flt * flt) : flt := if flt_lt (snd ab) (fst ab) then snd ab else fst ab.
Definition pymax (ab : flt * flt) : flt := if flt_lt (fst ab) (snd ab) then snd ab else fst ab.

(** _reject_box_inside_bool_array, peaks.py:432-462. *)
Definition box_mask (p : peaks) (xt : string) (xl : flt * flt) (yt : string) (yl : flt * flt)
  : result (nd bool) :=
  do xs <- stored p xt;
  do ys <- stored p yt;
  do b1 <- where_set (fun x => flt_lt (pymin xl) x) (valid p) (zeros_like xs) xs;
  do b2 <- where_set (fun x => flt_lt x (pymax xl)) b1 b1 xs;
  do b3 <- where_set (fun y => flt_lt (pymin yl) y) b2 b2 ys;
  where_set (fun y => flt_lt y (pymax yl)) b3 b3 ys.
(** reject_box_inside, peaks.py:412-430. *)
Definition reject_box (p : peaks) (xt : string) (xl : flt * flt) (yt : string) (yl : flt * flt)
  : peaks * result unit :=
  match box_mask p xt xl yt yl with
  | Ok b => reject p b
  | Err e => (p, Err e)
  end.

(** A call of one of the two rejection methods. *)
Inductive rejection : Type :=
| Limits (attr : string) (lo hi : option flt)
| Box (xt : string) (xl : flt * flt) (yt : string) (yl : flt * flt).
Definition do_reject (p : peaks) (r : rejection) : peaks * result unit :=
  match r with
  | Limits k lo hi => reject_limits p k lo hi
  | Box xt xl yt yl => reject_box p xt xl yt yl
  end.
(** A history of calls; exceptions are caught by the caller. *)
Definition run_rejects (p : peaks) (rs : list rejection) : peaks :=
  fold_left (fun q r => fst (do_reject q r)) rs p.

(** * simplify_mpeaks, peaks.py:468-511 *)

(** The inner loop over the rows of one column: (mval, mindex). *)
Fixpoint best_row (vals : list (flt * bool)) (rindex : nat) (mindex : nat) (mval : flt)
  : nat * flt :=
  match vals with
  | [] => (mindex, mval)
  | (x, ok) :: t =>
      if negb ok then best_row t (S rindex) mindex mval
      else if flt_lt mval x then best_row t (S rindex) rindex x
      else best_row t (S rindex) mindex mval
  end.
Definition column {A} (d : A) (r c : nat) (l : list A) (j : nat) : list A :=
  map (fun i => at2 d c l i j) (range r).
(** The outer loop over the columns [js]. *)
Definition simplify_cols (r c : nat) (decide : list flt) (ok : list bool) (a : list flt)
  : list flt :=
  flat_map
    (fun j =>
       let (m, v) := best_row (combine (column NaN r c decide j) (column false r c ok j))
                              0 0 NInf in
       if flt_eq v NInf then [] else [at2 NaN c a m j])
    (range c).
Definition simplify_mpeaks (p : peaks) (k : string) : result (list flt) :=
  do a <- stored p k;
  match shp a with
  | S1 _ => public p k
  | S2 r c =>
      do decide <- match assoc "power" (fields p) with
                   | Some d => Ok d
                   | None => field_of p "frequency"
                   end;
      if shape_eqb (shp decide) (shp a) && shape_eqb (shp (valid p)) (shp a)
      then Ok (simplify_cols r c (dat decide) (dat (valid p)) (dat a))
      else Err IndexError
  end.

(** * JSON *)

(** The JSON documents the package writes; Python's json writes and reads NaN
    and Infinity, and json.load (json.dump x) = x on them. *)
Inductive json : Type :=
| JNum (x : flt)
| JBool (b : bool)
| JNull
| JStr (s : string)
| JArr (l : list json)
| JObj (kv : list (string * json)).

Definition rows {A} (r c : nat) (l : list A) : list (list A) :=
  map (fun i => firstn c (skipn (i * c) l)) (range r).
(** ndarray.tolist() *)
Definition tolist {A} (leaf : A -> json) (a : nd A) : json :=
  match shp a with
  | S1 _ => JArr (map leaf (dat a))
  | S2 r c => JArr (map (fun l => JArr (map leaf l)) (rows r c (dat a)))
  end.
(** np.array(tree, dtype=...).  Zero- and more than two-dimensional arrays are
    in PeaksTreeModel.v: those trees, and ragged ones, raise ValueError here. *)
Definition as_list {A} (leaf : json -> result A) (j : json) : result (list A) :=
  match j with JArr l => mapM leaf l | _ => Err ValueError end.
Definition to_nd {A} (leaf : json -> result A) (j : json) : result (nd A) :=
  match j with
  | JArr (JArr l :: t) =>
      do ls <- mapM (as_list leaf) (JArr l :: t);
      let c := List.length l in
      if forallb (fun x => (List.length x =? c)%nat) ls
      then Ok (ND (S2 (List.length ls) c) (concat ls)) else Err ValueError
  | JArr l => do xs <- mapM leaf l; Ok (ND (S1 (List.length xs)) xs)
  | _ => Err ValueError
  end.
(** float(x) and bool(x) of a JSON leaf (strings are not parsed here; PeaksTreeModel.v). *)
Definition leaf_num (j : json) : result flt :=
  match j with
  | JNum x => Ok x
  | JBool b => Ok (if b then f1 else f0)
  | JNull => Ok NaN
  | JStr _ => Err ValueError
  | _ => Err TypeError
  end.
Definition leaf_bool (j : json) : result bool :=
  match j with
  | JBool b => Ok b
  | JNum x => Ok (negb (flt_eq x f0))
  | JNull => Ok false
  | JStr s => Ok (negb (s =? ""))
  | JObj kv => Ok (match kv with [] => false | _ => true end)
  | JArr _ => Err ValueError
  end.

(** A Python dict: keys in insertion order. *)
Definition dict A := list (string * A).
Definition has_key {A} (k : string) (d : dict A) : bool :=
  match assoc k d with Some _ => true | None => false end.
(** d[k] = v *)
Fixpoint dict_set {A} (k : string) (v : A) (d : dict A) : dict A :=
  match d with
  | [] => [(k, v)]
  | (k', v') :: t => if k =? k' then (k, v) :: t else (k', v') :: dict_set k v t
  end.
(** del d[k] *)
Definition dict_del {A} (k : string) (d : dict A) : dict A :=
  filter (fun kv => negb (k =? fst kv)) d.

(** The dict built at peaks.py:531-534. *)
Definition to_dict (p : peaks) : dict json :=
  (map (fun kv => (fst kv, tolist JNum (snd kv))) (fields p)
   ++ [("valid", tolist JBool (valid p))])%list.

(** from_dict, peaks.py:580-613, with the loop over the keyword arguments of __init__ (88-91)
    since there each array is built just before it is assigned.  The first component is the caller's dict
    afterwards.  A missing "frequency" or "velocity", or a key "identifier" or "self",
    is a TypeError of the call cls(identifier=..., **data_dict). *)
Definition from_dict (d : dict json) (ident : string) : dict json * result peaks :=
  let valid := assoc "valid" d in
  let d' := dict_del "valid" d in
  (d',
   if has_key "identifier" d' || has_key "self" d' then Err TypeError else
   match assoc "frequency" d', assoc "velocity" d' with
   | Some jf, Some jv =>
       do f <- to_nd leaf_num jf;
       do v <- to_nd leaf_num jv;
       do kw <- mapM (fun kv => do a <- to_nd leaf_num (snd kv);
                                if computed (fst kv) then Err AttributeError else Ok (fst kv, a))
                     (dict_del "velocity" (dict_del "frequency" d'));
       do p <- new_peaks f v ident kw;
       match valid with
       | None | Some JNull => Ok p
       | Some j => do m <- to_nd leaf_bool j; Ok (set_valid p m)
       end
   | _, _ => Err TypeError
   end).

(** A file on disk: absent, a complete JSON document, or bytes that are not one
    (an empty or partly written file). *)
Inductive file : Type := Absent | Doc (j : json) | Broken.
Definition json_load (f : file) : result json :=
  match f with
  | Absent => Err FileNotFoundError
  | Doc j => Ok j
  | Broken => Err ValueError            (* json.JSONDecodeError *)
  end.
(** open(fname, "w") empties the file; json.dump then writes piece by piece.
    All states of the file on disk from the opening on, in order (any number of
    partly written states counts as one). *)
Definition dump_states (j : json) : list file := [Broken; Doc j].

(** to_json, peaks.py:513-551: the states the file goes through after its
    initial state (empty list: not touched) and the outcome. *)
Definition to_json (p : peaks) (append : bool) (f : file) : list file * result unit :=
  if append then
    match json_load f with
    | Err e => ([], Err e)
    | Ok (JObj old) =>
        if has_key (identifier p) old then ([], Err KeyError)
        else (dump_states (JObj (dict_set (identifier p) (JObj (to_dict p)) old)), Ok tt)
    | Ok _ => ([], Err AttributeError)   (* no .keys() *)
    end
  else (dump_states (JObj [(identifier p, JObj (to_dict p))]), Ok tt).
(** The file when the method has returned or raised. *)
Definition final (f : file) (states : list file) : file := last states f.

(** from_json, peaks.py:553-578. *)
Definition from_json (f : file) : result peaks :=
  do j <- json_load f;
  match j with
  | JObj [] => Err IndexError
  | JObj ((k, JObj d) :: _) => snd (from_dict d k)
  | JObj _ => Err AttributeError
  | _ => Err AttributeError
  end.

(** * Equality *)

(** np.isclose with the default rtol = 1e-5, atol = 1e-8 and equal_nan. *)
Definition isclose (x y : flt) : bool :=
  match x, y with
  | Fin a, Fin b =>
      Qcleb (Qcabs (a - b)) (Q2Qc (1 # 100000000) + Q2Qc (1 # 100000) * Qcabs b)%Qc
  | NaN, NaN => true
  | _, _ => flt_eq x y
  end.
(** np.allclose of two one-dimensional arrays, with broadcasting of length 1;
    other different lengths raise ValueError. *)
Definition allclose (l m : list flt) : result bool :=
  if (List.length l =? List.length m)%nat then Ok (forallb (fun xy => isclose (fst xy) (snd xy)) (combine l m))
  else match l, m with
       | [x], _ => Ok (forallb (isclose x) m)
       | _, [y] => Ok (forallb (fun x => isclose x y) l)
       | _, _ => Err ValueError
       end.
(** __eq__ between two Peaks, peaks.py:649-679 (an other type gives False).
    An exception other than AttributeError / ValueError propagates. *)
Fixpoint attrs_eq (p q : peaks) (ks : list string) : result bool :=
  match ks with
  | [] => Ok true
  | k :: t =>
      match public p k with
      | Err AttributeError => Ok false
      | Err e => Err e
      | Ok l =>
          match public q k with
          | Err AttributeError => Ok false
          | Err e => Err e
          | Ok m => match allclose l m with
                    | Ok true => attrs_eq p q t
                    | Ok false => Ok false
                    | Err ValueError => Ok false
                    | Err e => Err e
                    end
          end
      end
  end.
Definition peaks_eq (p q : peaks) : result bool :=
  if negb (identifier p =? identifier q) then Ok false
  else if negb (List.length (attrs p) =? List.length (attrs q))%nat then Ok false
  else attrs_eq p q (attrs p).
