(* C31: trial velocities of zero in the frequency-domain beamformer. *)
From Verif Require Import BeamModel BeamSpec PyFacts NumFacts BeamProofs BeamPowerProofs BeamArrayProofs
  TransformSpec ArraySpec.
Local Open Scope R_scope.
Local Open Scope list_scope.

(** A trial velocity of zero has no wavenumber: no entry of its row is a number, whatever
    the record, the weighting and the steering. *)
Theorem C31_zero : forall angle wt st a vels fl fh fs pw i, fdbf angle wt st a vels fl fh = Ok (fs, pw) ->
  nth_error vels i = Some 0%Qc -> forall j x, entry_at pw i j = Some x -> x = None.
Proof.
  intros angle wt st a vels fl fh fs pw i H V j x E. unfold fdbf in H.
  destruct (BeamModel.kept a fl fh) as [k|e]; [|discriminate H]. cbn [bind] in H. destruct (flipped a) as [tm offs]. injection H as <- <-.
  unfold entry_at in E. rewrite (map_nth_error _ _ _ V) in E. rewrite nth_error_map in E.
  destruct (nth_error _ j) as [jf|]; [|discriminate E]. cbn [option_map] in E. injection E as <-.
  unfold fdbf_cell. destruct (Req_EM_T (toR 0) 0) as [_|N]; [reflexivity|]. exfalso. apply N. apply toR_0.
Qed.
Print Assumptions C31_zero.
