(* Model of SlantStack.transform (/repo/swprocess/wavefieldtransforms.py:493-527) and of
   Array1D.kres (/repo/swprocess/array1d.py:144-147).  Numbers as in BeamModel.v. *)
From Verif Require Export BeamModel.
Local Open Scope R_scope.
Local Open Scope list_scope.

(** np.fft.fft(row, n=n), bin [k]: the row is cropped or padded with zeros to [n] samples. *)
Definition fft_n (row : list Qc) (n k : nat) : C :=
  dft (firstn n row ++ repeat 0%Qc (n - List.length row)) k.
(** SlantStack.transform: the frequencies and power[i][j] for velocity i and frequency j. *)
Definition slant_transform (a : array) (vels : list Qc) (fmin fmax : Qc) : result (list Qc * list (list C)) :=
  match sensors a with
  | [] => Err IndexError
  | s :: _ =>
      let n := nsamples (ser s) in
      bind (slant_stack a vels) (fun rows =>
      bind (internal_df (ser s)) (fun df =>
      let frqs := frequency_vector n df in
      bind (frequency_keep_ids frqs fmin fmax (multiple (ser s))) (fun ids =>
      bind (take frqs ids) (fun fs =>
      Ok (fs, map (fun r => map (fun i => fft_n r n (Z.to_nat i)) ids) rows)))))
  end.

(** kres, array1d.py:144-147: np.pi / min(np.diff(position)); None stands for infinity (two
    receivers at one position), min of nothing raises ValueError. *)
Definition kres (a : array) : result (option R) :=
  match diffs (position a) with
  | [] => Err ValueError
  | d :: t => let g := lmin d t in Ok (if Qceqb g 0%Qc then None else Some (PI / toR g))
  end.
