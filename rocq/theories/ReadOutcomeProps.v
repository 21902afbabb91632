(* Properties C17, C20 and C73: the outcome in the cases the other theorems leave out. *)
From Verif Require Import PyFacts NumFacts SeriesModel SeriesSpec SeriesProofs ArrayModel ArraySpec ArrayProofs.
From Verif Require Import HeaderModel HeaderSpec HeaderProofs HeaderFileProofs ReadOutcomeSpec ReadOutcomeProofs.
Local Notation q n d := (Q2Qc (n # d)).
Local Notation id1 := (fun x : Qc => x).

(** ** C17 *)
(** For every array: the traces are handed over from right to left if the source is right of the last receiver,
    and from left to right otherwise, each with its distance from the source. *)
Theorem C17_order : forall a m offs, flipped a = (m, offs) ->
  let order := if Qclt_le_dec (last_x a) (src_x (src a)) then rev (sensors a) else sensors a in
  m = map (fun s => amp (ser s)) order /\ offs = map (dist a) order.
Proof. exact flipped_order. Qed.
Print Assumptions C17_order.
(** So with the source at the last receiver they always come from far to near. *)
Theorem C17_at_last_receiver : forall a m offs,
  consistent a -> src_x (src a) = last_x a -> flipped a = (m, offs) -> increasing (rev offs).
Proof. exact flipped_at_last. Qed.
Print Assumptions C17_at_last_receiver.

(** ** C20 *)
(** Several files are accepted only if every receiver of every further file is, without the maps,
    where the maps put the receiver of the first file it is added to. *)
Theorem C20_several : forall (F K : Type) (read : option K -> F -> result (list trace)) mx my kw f0 rest a,
  from_files read mx my kw (f0 :: rest) = Ok a ->
  exists a0, from_files read mx my kw [f0] = Ok a0 /\ map place (sensors a) = map place (sensors a0) /\
    forall x, In x rest -> exists st, read None x = Ok st /\
      forall k s t, nth_error (sensors a) k = Some s -> nth_error st k = Some t ->
        exists n, from_trace t id1 id1 = Ok n /\ place n = place s.
Proof. intros F K read. exact (several_files read). Qed.
Print Assumptions C20_several.
Local Definition su2 (x n : Z) : su_header :=
  mkSu (Value 1%Z) (Value 1%Z) (Value (-5)%Z) (Value 0%Z) (Value x) (Value 0%Z) (Value n) (Value 0%Z).
Local Definition tr2 (x n : Z) (l : list Z) : trace := mkTrace (map QcZ l) (q 1 1000) (Su (su2 x n)).
Local Definition disk (files : list (list trace)) (_ : option unit) (f : nat) : result (list trace) :=
  match nth_error files f with Some s => Ok s | None => Err FileNotFoundError end.
(** The first file was written in the other direction; the second already has the places asked for. *)
Example C20_several_example :
  match from_files (disk [[tr2 0 1 [1; 2]%Z; tr2 3 1 [3; 4]%Z]; [tr2 (-3) 1 [5; 6]%Z; tr2 0 1 [7; 8]%Z]])
          (fun x => if Qceqb x (QcZ (-5)) then x else - x)%Qc Qcopp None [0; 1] with
  | Ok a => map (fun s => this (sx s)) (sensors a) = [-3; 0]%Q /\ map (fun s => map this (amp (ser s))) (sensors a) = [[4; 5]; [4; 5]]%Q
  | Err _ => False
  end.
Proof. vm_compute. auto. Qed.

(** ** C73 *)
(** For every list of readable files: the mean, if every record has as many samples as the first or just one,
    which is then added to all samples; ValueError otherwise. *)
Theorem C73_outcome : forall (F K : Type) (read : option K -> F -> result (list trace)) ch f0 rest t0 trs,
  recorded read ch f0 t0 -> Forall2 (recorded read ch) rest trs ->
  (Forall (fits (length (t_data t0))) trs ->
   exists r, source_signal read ch (f0 :: rest) = Ok (r, t_delta t0) /\ length r = length (t_data t0) /\
     forall k, k < length r ->
       nth k r 0%Qc = ((nth k (t_data t0) 0 + Qcsum (map (contribution (length (t_data t0)) k) trs)) / QcN (length (f0 :: rest)))%Qc) /\
  (~ Forall (fits (length (t_data t0))) trs -> source_signal read ch (f0 :: rest) = Err ValueError).
Proof. intros F K read. exact (signal_outcome read). Qed.
Print Assumptions C73_outcome.
(** A file that cannot be read, or has no such channel: its exception, as long as the records before it fit. *)
Theorem C73_unreadable : forall (F K : Type) (read : option K -> F -> result (list trace)) ch x e post, missing read ch x e ->
  source_signal read ch (x :: post) = Err e /\
  forall f0 t0 pre trs, recorded read ch f0 t0 -> Forall2 (recorded read ch) pre trs -> Forall (fits (length (t_data t0))) trs ->
    source_signal read ch (f0 :: pre ++ x :: post) = Err e.
Proof.
  intros F K read ch x e post M. split; [apply signal_first; exact M|].
  intros f0 t0 pre trs R0 R Fa. exact (signal_missing read ch f0 t0 pre trs x e post R0 R Fa M).
Qed.
Print Assumptions C73_unreadable.
Local Definition out (r : result (list Qc * Qc)) : result (list Q) := bind r (fun p => Ok (map this (fst p))).
Example C73_outcome_example :
  let d := disk [[tr2 0 1 [1; 2]%Z]; [tr2 0 1 [3]%Z]; [tr2 0 1 [5; 9; 2]%Z]] in
  out (source_signal d 0 [0; 1]) = Ok [2; 5 # 2]%Q /\ source_signal d 0 [0; 2; 7] = Err ValueError /\
  source_signal d 0 [0; 1; 7] = Err FileNotFoundError /\ source_signal d 1 [0; 1] = Err IndexError.
Proof. vm_compute. auto. Qed.
