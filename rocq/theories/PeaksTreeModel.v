(* Model of loading peaks from JSON trees of any depth (/repo/swprocess/peaks.py).  PeaksModel.v has lists and lists of lists;
   numpy also makes arrays of single values and of deeper lists, and numbers of texts. *)
From Verif Require Export PeaksModel.
Local Open Scope list_scope.
Local Open Scope string_scope.
Local Open Scope nat_scope.

(** An array of any number of dimensions, its entries row by row.  (numpy's limit of 32 or 64 dimensions is left out.) *)
Record tensor (A : Type) : Type := Tensor { dims : list nat; entries : list A }.
Arguments Tensor {A}. Arguments dims {A}. Arguments entries {A}.
Definition tensor_map {A B} (f : A -> B) (a : tensor A) : tensor B := Tensor (dims a) (map f (entries a)).

(** Lists of equal shapes make one array with one more dimension. *)
Definition same_dims (a b : list nat) : bool := if list_eq_dec Nat.eq_dec a b then true else false.
Definition pile {A} (ts : list (tensor A)) : option (tensor A) :=
  match ts with
  | [] => Some (Tensor [0] [])
  | t :: _ => if forallb (fun u => same_dims (dims u) (dims t)) ts
              then Some (Tensor (List.length ts :: dims t) (List.concat (map entries ts))) else None
  end.
Fixpoint all_some {A} (l : list (option A)) : option (list A) :=
  match l with
  | [] => Some []
  | Some x :: t => match all_some t with Some r => Some (x :: r) | None => None end
  | None :: _ => None
  end.
(** np.array(tree, dtype=...), peaks.py:78-79, 91 and 611; None: refused with an exception (TypeError or ValueError, whichever
    numpy meets first). *)
Fixpoint np_array {A} (leaf : json -> option A) (j : json) : option (tensor A) :=
  match j with
  | JArr l => match all_some (map (np_array leaf) l) with Some ts => pile ts | None => None end
  | _ => match leaf j with Some x => Some (Tensor [] [x]) | None => None end
  end.

(** Names `k` for which setattr(self, f"_{k}", array) raises, peaks.py:90-91: the read-only properties, and the attributes that
    Python keeps for itself. *)
Definition unsettable (k : string) : bool :=
  (computed k || (k =? "_class__") || (k =? "_dict__") || (k =? "_weakref__"))%string.

Section Load.
  (** float(text): the number that a text stands for, if any. *)
  Context (numeral : string -> option flt).
  (** float(x) and bool(x) of a JSON leaf. *)
  Definition float_leaf (j : json) : option flt :=
    match j with
    | JNum x => Some x
    | JBool b => Some (if b then f1 else f0)
    | JNull => Some NaN
    | JStr s => numeral s
    | _ => None
    end.
  Definition bool_leaf (j : json) : option bool :=
    match j with
    | JBool b => Some b
    | JNum x => Some (negb (flt_eq x f0))
    | JNull => Some false
    | JStr s => Some (negb (s =? "")%string)
    | JObj kv => Some (match kv with [] => false | _ => true end)
    | JArr _ => None
    end.
  (** peaks.py:59-91 and 594-613: the arrays in the order of self.attrs, and the mask.  None: refused. *)
  Record tree_peaks : Type := mkTreePeaks { t_identifier : string; t_fields : list (string * tensor flt); t_valid : tensor bool }.
  Definition tree_from_dict (d : dict json) (ident : string) : option tree_peaks :=
    let d' := dict_del "valid" d in
    if has_key "identifier" d' || has_key "self" d' || existsb (fun kv => unsettable (fst kv)) d' then None else
    match assoc "frequency" d', assoc "velocity" d' with
    | Some jf, Some jv =>
        match np_array float_leaf jf, np_array float_leaf jv,
              all_some (map (fun kv => match np_array float_leaf (snd kv) with Some a => Some (fst kv, a) | None => None end)
                            (dict_del "velocity" (dict_del "frequency" d'))) with
        | Some f, Some v, Some kw =>
            let p m := mkTreePeaks ident (("frequency", f) :: ("velocity", v) :: kw) m in
            match assoc "valid" d with
            | None | Some JNull => Some (p (tensor_map (fun x => negb (is_nan x)) v))
            | Some j => match np_array bool_leaf j with Some m => Some (p m) | None => None end
            end
        | _, _, _ => None
        end
    | _, _ => None
    end.
End Load.
