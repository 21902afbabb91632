(* C26 for images with silent frequencies and after refused calls. *)
From Verif Require Import PyFacts NumFacts TransformModel TransformSpec TransformNormProofs TransformLossSpec TransformLossProofs.
Local Open Scope list_scope.

(** Any sequence of normalisations of any image, silent frequencies or not: every frequency not lost
    shows the original magnitudes divided as the last call asks; the others are NaN for good. *)
Theorem C26_history : forall K kabs kmul kreal (w : transform K) nr nc m l,
  entry_laws kabs kmul kreal ->
  to_abs w = Scalar f1 -> magnitudes kabs (power w) = fin m ->
  rect nr nc m -> m <> [] -> 0 < nc -> nonneg m ->
  l <> [] -> (forall s, In s l -> valid_name s) ->
  exists q, power (normalize_all kabs kmul kreal w l)
              = reals kreal (masked (fold_left (lose (silences nc m)) l (repeat false nc)) q) /\
            normalised (last l ""%string) nr nc m q /\
            wfrq (normalize_all kabs kmul kreal w l) = wfrq w /\
            wvel (normalize_all kabs kmul kreal w l) = wvel w.
Proof. intros K kabs kmul kreal w nr nc m l L Ht Hp Hr Hm Hc Hn Hl Hv. exact (history_loss kabs kmul kreal L nr nc m Hr Hm Hc Hn l w Ht Hp Hl Hv). Qed.
Print Assumptions C26_history.

(** What a refused call does after normalisations that succeeded: it raises KeyError but shows the
    undivided magnitudes, and from then on every normalisation is one of the image
    multiplied by the maxima of the last one. *)
Theorem C26_refused_history : forall K kabs kmul kreal (w : transform K) nr nc m l s,
  entry_laws kabs kmul kreal ->
  to_abs w = Scalar f1 -> magnitudes kabs (power w) = fin m ->
  rect nr nc m -> m <> [] -> 0 < nc -> nonneg m ->
  l <> [] -> (forall x, In x l -> valid_name x) -> loud l nc m -> ~ valid_name s ->
  exists q,
    snd (normalize kabs kmul kreal (normalize_all kabs kmul kreal w l) s) = Err KeyError /\
    power (normalize_all kabs kmul kreal w (l ++ [s])) = reals kreal (fin m) /\
    inflated (last l ""%string) nr nc m q /\
    forall l', l' <> [] -> (forall x, In x l' -> valid_name x) -> loud l' nc q ->
      exists p, power (normalize_all kabs kmul kreal w (l ++ [s] ++ l')) = reals kreal (fin p) /\
                normalised (last l' ""%string) nr nc q p.
Proof. intros K kabs kmul kreal w nr nc m l s L Ht Hp Hr Hm Hc Hn Hl Hv Hd Hs. exact (refused_history kabs kmul kreal L nr nc m Hr Hm Hc Hn w l s Ht Hp Hl Hv Hd Hs). Qed.
Print Assumptions C26_refused_history.

(** A silent first frequency is lost at the first division by its own maximum; the
    division by the overall maximum then loses the other one too. *)
Local Definition z (n : Z) : Qc := Q2Qc (inject_Z n).
Local Definition m26 := [[z 0; z 8]; [z 0; z 2]].
Example C26_history_example :
  silences 2 m26 = [true; false] /\
  fold_left (lose (silences 2 m26)) ["absolute-maximum"; "frequency-maximum"; "none"]%string [false; false] = [true; false] /\
  fold_left (lose (silences 2 m26)) ["frequency-maximum"; "absolute-maximum"; "none"]%string [false; false] = [true; true] /\
  rect 2 2 m26 /\ nonneg m26.
Proof.
  split; [vm_compute; reflexivity|]. split; [vm_compute; reflexivity|]. split; [vm_compute; reflexivity|].
  split.
  - split; [reflexivity|]. intros r [<-|[<-|[]]]; reflexivity.
  - intros r x [<-|[<-|[]]] Hx; repeat (destruct Hx as [<-|Hx]; [discriminate|]); destruct Hx.
Qed.
(** A division that is followed by a misspelt name. *)
Local Definition m26' := [[z 1; z 8]; [z 4; z 2]].
Example C26_refused_history_example :
  rect 2 2 m26' /\ nonneg m26' /\ loud ["absolute-maximum"%string] 2 m26' /\ ~ valid_name "frequency_maximum"%string.
Proof.
  split; [split; [reflexivity|]; intros r [<-|[<-|[]]]; reflexivity|]. split.
  - intros r x [<-|[<-|[]]] Hx; repeat (destruct Hx as [<-|Hx]; [discriminate|]); destruct Hx.
  - split.
    + split; [|intros [H|[]]; discriminate]. intros _. exists [z 1; z 8], (z 1). split; [now left|]. split; [now left|reflexivity].
    + intros [H|[H|H]]; discriminate.
Qed.

(** ** C28: an empty transform that has everything stacked onto it and is normalised
    afterwards shows the magnitudes of the mean, divided as the last call asks. *)
Theorem C28_image : forall (w : transform flt) nr nc p l,
  power w = fin p -> rect nr nc p -> wn w = 0%Z -> to_abs w = Scalar f1 -> 0 < nr -> 0 < nc ->
  l <> [] -> (forall k m, In (k, m) l -> (0 < k)%Z /\ rect nr nc m) ->
  exists w' m, stack_many w (others l) = (w', Ok tt) /\ rect nr nc m /\
    (forall i j, i < nr -> j < nc -> entry m i j = Qcabs (mean_entry l i j)) /\
    forall names, names <> [] -> (forall s, In s names -> valid_name s) ->
      exists q, power (normalize_all fabs fmul (fun x => x) w' names)
                  = masked (fold_left (lose (silences nc m)) names (repeat false nc)) q /\
                normalised (last names ""%string) nr nc m q.
Proof.
  intros w nr nc p l Hp Hr Hn Ht Pr Pc Hl H.
  destruct (stack_many_fin nr nc l w p Hp Hr) as (w' & p' & A & B & C & D & _ & _ & T & E).
  - lia.
  - intros k m I. destruct (H k m I). split; [lia|auto].
  - destruct l as [|[k m] l]; [congruence|]. destruct (H k m); [now left|]. lia.
  - exists w', (map (map Qcabs) p').
    assert (R : rect nr nc (map (map Qcabs) p')).
    { destruct C as [C1 C2]. split; [now rewrite map_length|]. intros r Hr'. apply in_map_iff in Hr' as (r0 & <- & Hr').
      rewrite map_length. auto. }
    split; [exact A|]. split; [exact R|]. split.
    + intros i j Hi Hj. unfold entry. destruct C as [C1 C2].
      rewrite (nth_map_lt (map Qcabs) p' i [] []) by lia.
      assert (In (nth i p' []) p') by (apply nth_In; lia).
      rewrite (nth_map_lt Qcabs _ j 0%Qc 0%Qc) by (rewrite C2; auto).
      f_equal. change (entry p' i j = mean_entry l i j). rewrite E by auto. rewrite Hn, QcZ_0. cbn [Z.add].
      unfold mean_entry, wsum. f_equal. ring.
    + intros names N V.
      destruct (C26_history flt fabs fmul (fun x => x) w' nr nc (map (map Qcabs) p') names real_laws) as (q & Q1 & Q2 & _); auto.
      * now rewrite T.
      * rewrite B. unfold magnitudes, fin. rewrite !map_map. apply map_ext. intros r. rewrite !map_map. apply map_ext. reflexivity.
      * intros Z. destruct R as [R _]. rewrite Z in R. cbn in R. lia.
      * intros r x Hr' Hx. apply in_map_iff in Hr' as (r0 & <- & _). apply in_map_iff in Hx as (y & <- & _). apply Qcabs_nonneg.
      * exists q. split; [|exact Q2]. rewrite Q1. unfold reals. rewrite <- (map_id (masked _ q)) at 2.
        apply map_ext. intros r. apply map_id.
Qed.
Print Assumptions C28_image.

(** Not so when it is normalised, or plotted, in between: the old maxima are kept and
    multiplied onto the new stack.  The mean of 2 and 4 is shown as 5. *)
Theorem C28_looked_at_refuted : exists w a b : transform flt,
  wn w = 0%Z /\ to_abs w = Scalar f1 /\
  let stacked := fst (stack w (of_transform a)) in
  let looked := fst (normalize_real stacked "absolute-maximum") in
  map (map show_flt) (power (fst (normalize_real (fst (stack stacked (of_transform b))) "none"))) = [[ShFin 3]] /\
  map (map show_flt) (power (fst (normalize_real (fst (stack looked (of_transform b))) "none"))) = [[ShFin 5]].
Proof.
  exists (new_empty [z 1] [z 2] (fin [[z 0]])), (new_transform [z 1] [z 2] (fin [[z 2]])), (new_transform [z 1] [z 2] (fin [[z 4]])).
  vm_compute. auto.
Qed.
Print Assumptions C28_looked_at_refuted.
Example C28_image_example : exists (w : transform flt) p (l : list (Z * list (list Qc))),
  power w = fin p /\ rect 1 2 p /\ wn w = 0%Z /\ to_abs w = Scalar f1 /\ List.length l = 2 /\
  (forall k m, In (k, m) l -> (0 < k)%Z /\ rect 1 2 m).
Proof.
  exists (new_empty [] [] (fin [[z 0; z 0]])), [[z 0; z 0]], [(1%Z, [[z 1; z 2]]); (3%Z, [[z 3; z 8]])].
  split; [reflexivity|]. split; [split; [reflexivity|intros r [<-|[]]; reflexivity]|]. split; [reflexivity|].
  split; [reflexivity|]. split; [reflexivity|].
  intros k m [E|[E|[]]]; injection E as <- <-; (split; [lia|]); (split; [reflexivity|intros r [<-|[]]; reflexivity]).
Qed.
