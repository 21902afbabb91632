(* C19 for files of any number of traces, and C127: the order of the files. *)
From Coq Require Import Permutation.
From Verif Require Import NumFacts PyFacts SeriesModel SeriesSpec ArrayModel ArraySpec.
From Verif Require Import HeaderModel HeaderSpec HeaderErrorSpec StackFilesSpec StackFilesProofs StackOrderProofs.

(** Whatever the numbers of traces and of stacks: receiver i holds the mean, weighted by the stack counts, of
    the i-th traces of those files that have one. *)
Theorem C19_mean : forall (F K : Type) (read : option K -> F -> result (list trace)) mx my kw f0 rest a,
  from_files read mx my kw (f0 :: rest) = Ok a ->
  exists a0 S, from_files read mx my kw [f0] = Ok a0 /\ src a = src a0 /\ length (sensors a) = length (sensors a0) /\
    Forall2 (fun x ns => exists st, read None x = Ok st /\ Forall2 decodes (firstn (length (sensors a0)) st) ns) rest S /\
    forall i d, i < length (sensors a0) ->
      let r0 := nth i (sensors a0) d in let rs := records_at i d S in let r := nth i (sensors a) d in
      Forall (fun n => same_place n r0) rs /\ same_place r r0 /\
      nstacks (ser r) = total_stacks (map ser (r0 :: rs)) /\
      dt (ser r) = dt (ser r0) /\ delay (ser r) = delay (ser r0) /\ length (amp (ser r)) = length (amp (ser r0)) /\
      forall k, k < length (amp (ser r)) ->
        nth k (amp (ser r)) 0%Qc = weighted_mean (map (fun s => (nstacks (ser s), nth k (amp (ser s)) 0%Qc)) (r0 :: rs)).
Proof. exact @any_mean. Qed.
Print Assumptions C19_mean.

(** The array is consistent exactly if all its receivers were stacked equally often. *)
Theorem C19_consistent_iff : forall (F K : Type) (read : option K -> F -> result (list trace)) mx my kw f0 rest a,
  from_files read mx my kw (f0 :: rest) = Ok a ->
  (consistent a <-> forall s t, In s (sensors a) -> In t (sensors a) -> nstacks (ser s) = nstacks (ser t)).
Proof. exact @any_consistent. Qed.
Print Assumptions C19_consistent_iff.

(** A further file of the right format and source: accepted exactly if each of its traces that has a receiver holds
    a record of that place with the same sampling.  The first trace that does not decides
    the exception, and no later file is read. *)
Theorem C19_accepted : forall (F K : Type) (read : option K -> F -> result (list trace)) mx my kw f0 fs f1 a pre u t ts f s,
  from_files read mx my kw (f0 :: fs) = Ok a -> read kw f0 = Ok (pre ++ [u]) -> read None f1 = Ok (t :: ts) ->
  same_format (t_header u) (t_header t) -> fmt_of (t_header t) = Some f -> parse_source f mx my t = Ok s -> s = src a ->
  ((exists b, from_files read mx my kw (f0 :: fs ++ [f1]) = Ok b) <->
   forall i d v, i < length (sensors a) -> i < length (t :: ts) -> fits (nth i (sensors a) d) (nth i (t :: ts) v)) /\
  forall i more d v, i < length (sensors a) -> i < length (t :: ts) -> (forall j, j < i -> fits (nth j (sensors a) d) (nth j (t :: ts) v)) ->
    (forall e, from_trace (nth i (t :: ts) v) (fun x => x) (fun y => y) = Err e ->
       from_files read mx my kw (f0 :: fs ++ f1 :: more) = Err e) /\
    (forall n, decodes (nth i (t :: ts) v) n -> ~ fits (nth i (sensors a) d) (nth i (t :: ts) v) ->
       from_files read mx my kw (f0 :: fs ++ f1 :: more) = Err ValueError).
Proof. intros F K read mx my kw f0 fs f1 a pre u t ts f s. apply next_traces. Qed.
Print Assumptions C19_accepted.

(** Three files: two traces, one trace, three traces (the last of them of no receiver). *)
Local Definition q (n : Z) (d : positive) : Qc := Q2Qc (n # d).
Local Definition id1 (x : Qc) : Qc := x.
Local Definition su (x n : Z) : su_header :=
  mkSu (Value 1%Z) (Value 1%Z) (Value (-5)%Z) (Value 0%Z) (Value x) (Value 0%Z) (Value n) (Value 0%Z).
Local Definition tr (x n : Z) (l : list Z) : trace := mkTrace (map QcZ l) (q 1 1000) (Su (su x n)).
Local Definition disk (_ : option unit) (f : nat) : result (list trace) :=
  match nth_error [[tr 0 1 [1; 2]%Z; tr 3 1 [3; 4]%Z]; [tr 0 3 [5; 6]%Z]; [tr 0 2 [7; 8]%Z; tr 3 5 [9; 10]%Z; tr 9 1 [0; 0]%Z];
                   [tr 0 1 [1; 2]%Z; tr 4 1 [1; 2]%Z]] f with
  | Some s => Ok s | None => Err FileNotFoundError end.
Example C19_mean_example :
  match from_files disk id1 id1 None [0; 1; 2] with
  | Ok a => map (fun s => map this (amp (ser s))) (sensors a) = [[5; 6]; [8; 9]]%Q /\
            map (fun s => nstacks (ser s)) (sensors a) = [6; 6]%Z
  | Err _ => False
  end /\ from_files disk id1 id1 None [0; 3; 9] = Err ValueError.
Proof. vm_compute. auto. Qed.

(** * C127: the order of the further files *)

(** Files stacked on the first one may be named in any order: success and the resulting array are the same. *)
Theorem C127_files : forall (F K : Type) (read : option K -> F -> result (list trace)) mx my kw f0 l l' a, Permutation l l' ->
  (from_files read mx my kw (f0 :: l) = Ok a <-> from_files read mx my kw (f0 :: l') = Ok a).
Proof. intros F K read mx my kw f0 l l' a P. split; apply further_files; [exact P|now apply Permutation_sym]. Qed.
Print Assumptions C127_files.
(** So may the files of the source signal. *)
Theorem C127_source : forall (F K : Type) (read : option K -> F -> result (list trace)) ch f0 l l' r, Permutation l l' ->
  (source_signal read ch (f0 :: l) = Ok r <-> source_signal read ch (f0 :: l') = Ok r).
Proof. intros F K read ch f0 l l' r P. split; apply source_order; [exact P|now apply Permutation_sym]. Qed.
Print Assumptions C127_source.
Example C127_example : Permutation [1; 2; 1] [2; 1; 1] /\
  (exists a, from_files disk id1 id1 None [0; 1; 2; 1] = Ok a) /\ exists r, source_signal disk 0 [0; 1; 2] = Ok r.
Proof.
  split; [apply perm_swap|]. split.
  - assert (T : match from_files disk id1 id1 None [0; 1; 2; 1] with Ok _ => true | Err _ => false end = true) by (vm_compute; reflexivity).
    destruct (from_files disk id1 id1 None [0; 1; 2; 1]); [eauto|discriminate].
  - assert (T : match source_signal disk 0 [0; 1; 2] with Ok _ => true | Err _ => false end = true) by (vm_compute; reflexivity).
    destruct (source_signal disk 0 [0; 1; 2]); [eauto|discriminate].
Qed.
(** The first file may not be exchanged: it fixes the receivers of the array. *)
Theorem C127_first_matters : exists (read : option unit -> nat -> result (list trace)) x y a b,
  from_files read (fun v => v) (fun v => v) None [x; y] = Ok a /\ from_files read (fun v => v) (fun v => v) None [y; x] = Ok b /\
  length (sensors a) <> length (sensors b).
Proof.
  exists disk, 0, 1.
  assert (T : match from_files disk id1 id1 None [0; 1], from_files disk id1 id1 None [1; 0] with
              | Ok a, Ok b => Nat.eqb (length (sensors a)) 2 && Nat.eqb (length (sensors b)) 1 | _, _ => false end = true) by (vm_compute; reflexivity).
  change (fun v : Qc => v) with id1. destruct (from_files disk id1 id1 None [0; 1]) as [a|]; [|discriminate]. destruct (from_files disk id1 id1 None [1; 0]) as [b|]; [|discriminate].
  exists a, b. split; [reflexivity|]. split; [reflexivity|]. apply andb_prop in T as [T1 T2]. apply Nat.eqb_eq in T1, T2. lia.
Qed.
Print Assumptions C127_first_matters.
