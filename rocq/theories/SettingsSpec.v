(* Settings written by hand: what they ask for. *)
From Verif Require Import WorkflowModel WorkflowSpec.
Local Open Scope string_scope.
Local Open Scope nat_scope.
Local Open Scope list_scope.
Local Open Scope py_scope.

(** Values that count as "no" in Python. *)
Inductive falsy : json -> Prop :=
| FNone : falsy JNull
| FFalse : falsy (JBool false)
| FZero : falsy (JInt 0)
| FZeroFloat : falsy (JNum (Fin 0%Qc))
| FEmptyStr : falsy (JStr "")
| FEmptyDict : falsy (JDict []).
Definition on (st : json) (path : list string) : Prop := exists v, at_path st path = Some v /\ ~ falsy v.
Definition off (st : json) (path : list string) : Prop := exists v, at_path st path = Some v /\ falsy v.
Definition switched (b : bool) : json -> list string -> Prop := if b then on else off.
(** A whole number; true and false count as one and zero. *)
Inductive whole : json -> Z -> Prop :=
| WInt z : whole (JInt z) z
| WTrue : whole (JBool true) 1
| WFalse : whole (JBool false) 0.
(** A number, written with or without decimal point. *)
Definition number (st : json) (path : list string) (q : Qc) : Prop :=
  at_path st path = Some (JNum (Fin q)) \/ exists j z, at_path st path = Some j /\ whole j z /\ q = QcZ z.
(** A number, possibly infinite. *)
Definition bound (st : json) (path : list string) (x : flt) : Prop :=
  at_path st path = Some (JNum x) \/ exists j z, at_path st path = Some j /\ whole j z /\ x = Fin (QcZ z).
(** No setting but the offset limits is infinite or not a number. *)
Definition finite_settings (st : json) : Prop := forall path x, at_path st path = Some (JNum x) ->
  (exists q, x = Fin q) \/ exists k, path = ["pre-processing"; "offsets"; k].
Definition times (st : json) (path : list string) (be : Qc * Qc) : Prop :=
  number st (path ++ ["begin"]) (fst be) /\ number st (path ++ ["end"]) (snd be).

Record snr_request : Type := mkSnrRequest {
  n_noise : Qc * Qc; n_signal : Qc * Qc; n_pad : bool; n_df : option Qc }.
(** What settings can ask for, apart from the entry "processing". *)
Record request : Type := mkRequest {
  q_offsets : flt * flt;
  q_snr : option snr_request;
  q_trim : option (Qc * Qc);
  q_mute : option (json * json);     (* method; window for the files after the first *)
  q_pad : option Qc }.
Definition asks_snr (st : json) (o : option snr_request) : Prop :=
  match o with
  | None => off st ["signal-to-noise"; "perform"]
  | Some n => on st ["signal-to-noise"; "perform"] /\
      times st ["signal-to-noise"; "noise"] (n_noise n) /\ times st ["signal-to-noise"; "signal"] (n_signal n) /\
      switched (n_pad n) st ["signal-to-noise"; "pad"; "apply"] /\
      match n_df n with
      | Some q => number st ["signal-to-noise"; "pad"; "df"] q
      | None => at_path st ["signal-to-noise"; "pad"; "df"] = Some JNull
      end
  end.
Definition asks_trim (st : json) (o : option (Qc * Qc)) : Prop :=
  match o with
  | None => off st ["pre-processing"; "trim"; "apply"]
  | Some be => on st ["pre-processing"; "trim"; "apply"] /\ times st ["pre-processing"; "trim"] be
  end.
Definition asks_mute (st : json) (o : option (json * json)) : Prop :=
  match o with
  | None => off st ["pre-processing"; "mute"; "apply"]
  | Some (method, window) => on st ["pre-processing"; "mute"; "apply"] /\
      at_path st ["pre-processing"; "mute"; "method"] = Some method /\
      window = match at_path st ["pre-processing"; "mute"; "window kwargs"] with
               | None | Some JNull => default_window
               | Some k => k
               end
  end.
Definition asks_pad (st : json) (o : option Qc) : Prop :=
  match o with
  | None => off st ["pre-processing"; "pad"; "apply"]
  | Some d => on st ["pre-processing"; "pad"; "apply"] /\ number st ["pre-processing"; "pad"; "df"] d
  end.
Definition asks (st : json) (q : request) : Prop :=
  bound st ["pre-processing"; "offsets"; "min"] (fst (q_offsets q)) /\
  bound st ["pre-processing"; "offsets"; "max"] (snd (q_offsets q)) /\
  asks_snr st (q_snr q) /\ asks_trim st (q_trim q) /\ asks_mute st (q_mute q) /\ asks_pad st (q_pad q).

(** ** The steps that are carried out *)
Inductive stage : Type :=
| Plain (o : action)
| MuteWith (method window : json)
| Ratio (fl fh : Qc) (pad : bool) (df : option Qc).
Definition carry (E : environment) (s : stage) (w : wf) : result wf :=
  let a := w_array w in
  match s with
  | Plain o => act E o w
  | MuteWith method window =>
      match w_lines w with
      | Some l => on_array w (mute a (e_taper E window) (Some (fst l)) (Some (snd l)))
      | None =>
          match method with
          | JStr "interactive" =>
              do l <- e_user E a;
              do a <- changed (mute a (e_taper E default_window) (Some (fst l)) (Some (snd l)));
              Ok (set_lines (set_array w a) l)
          | _ => Err KeyError
          end
      end
  | Ratio fl fh pad df =>
      match w_signal w, w_noise w with
      | Some s, Some n =>
          match snr_from_arrays (e_spectrum E) s n fl fh pad df with
          | ((s', n'), Ok r) => Ok (set_snr w s' n' r)
          | (_, Err e) => Err e
          end
      | _, _ => Err (if pad then AttributeError else TypeError)
      end
  end.
Fixpoint carry_out (E : environment) (l : list stage) (w : wf) : result wf :=
  match l with [] => Ok w | s :: t => do w' <- carry E s w; carry_out E t w' end.
Definition if_asked {A} (o : option A) (f : A -> list stage) : list stage := match o with Some x => f x | None => [] end.
Definition first_stages (q : request) : list stage :=
  [Plain RefuseInside; Plain (KeepOffsets (fst (q_offsets q)) (snd (q_offsets q))); Plain RemoveTrend]
  ++ if_asked (q_snr q) (fun n => [Plain (SelectNoise (fst (n_noise n)) (snd (n_noise n)))])
  ++ if_asked (q_trim q) (fun be => [Plain (TrimTime (fst be) (snd be))])
  ++ if_asked (q_mute q) (fun mw => [MuteWith (fst mw) (snd mw)])
  ++ if_asked (q_snr q) (fun n => [Plain (SelectSignal (fst (n_signal n)) (snd (n_signal n)))]).
Definition last_stages (q : request) : list stage := if_asked (q_pad q) (fun d => [Plain (PadRecords d)]).
(** The time-domain workflow; [fl] and [fh] are the frequencies processed. *)
Definition stages (q : request) (fl fh : Qc) : list stage :=
  first_stages q ++ if_asked (q_snr q) (fun n => [Ratio fl fh (n_pad n) (n_df n)]) ++ last_stages q.

(** What the settings made from arguments ask for. *)
Definition if_set {A} (b : option bool) (x : A) : option A := if given false b then Some x else None.
Definition requested (p : arguments) : request :=
  mkRequest (given f0 (a_min_offset p), given PInf (a_max_offset p))
    (if_set (a_snr p) (mkSnrRequest (given (Q2Qc (-1 # 2)) (a_noise_begin p), given 0%Qc (a_noise_end p))
                                    (given 0%Qc (a_signal_begin p), given (Q2Qc (1 # 2)) (a_signal_end p))
                                    (given true (a_pad_snr p)) (Some (given 1%Qc (a_df_snr p)))))
    (if_set (a_trim p) (given 0%Qc (a_trim_begin p), given 1%Qc (a_trim_end p)))
    (if_set (a_mute p) (JStr (given "interactive" (a_method p)), default_window))
    (if_set (a_pad p) (given 1%Qc (a_df p))).
