(* C47, second part: which rows and columns PeaksSuite._drop removes. *)
From Verif Require Import PyFacts NumFacts SuiteModel SuiteSpec SuiteStatProofs PeaksProps SuiteDropSpec SuiteDropProofs.
Local Open Scope nat_scope.
Local Open Scope list_scope.

(** The sparse columns and then the rows, or the sparse rows and then the columns, are removed:
    whichever rids the data of more missing values per observed value lost (rows first if equal). *)
Theorem C47_choice : forall share_row share_col number xx m, rectangular (List.length xx) m ->
  exists is1 js1 is2 js2,
    columns_first share_row share_col number (List.length m) (List.length xx) m is1 js1 /\
    rows_first share_row share_col number (List.length m) (List.length xx) m is2 js2 /\
    ((gain m is2 js2 < gain m is1 js1)%Qc /\
       drop share_row share_col number xx m = (map (fun j => nth j xx NaN) js1, part m is1 js1) \/
     (gain m is1 js1 <= gain m is2 js2)%Qc /\
       drop share_row share_col number xx m = (map (fun j => nth j xx NaN) js2, part m is2 js2)).
Proof. exact drop_choice. Qed.
Print Assumptions C47_choice.
(** So afterwards all rows, or all columns, have enough observed values. *)
Theorem C47_dense : forall share_row share_col number xx m xx' m', rectangular (List.length xx) m ->
  drop share_row share_col number xx m = (xx', m') ->
  (forall row, In row m' -> ~ too_sparse share_row 0 row) \/
  (forall j, j < List.length xx' -> ~ too_sparse share_col number (map (fun row => nth j row NaN) m')).
Proof.
  intros pr pc cnt xx m xx' m' R E. destruct (drop_choice pr pc cnt xx m R) as (is1 & js1 & is2 & js2 & C1 & C2 & [[_ D]|[_ D]]); rewrite E in D; injection D as -> ->.
  - left. intros row I. unfold part in I. apply in_map_iff in I. destruct I as (i & <- & Hi). destruct C1 as [_ [_ H]]. apply H in Hi. apply Hi.
  - right. intros k Hk. rewrite map_length in Hk. destruct C2 as [_ [_ H]].
    assert (Q : map (fun row => nth k row NaN) (part m is2 js2) = column_part m (nth k js2 0) is2).
    { unfold part, column_part. rewrite map_map. apply map_ext. intros i. exact (nth_map_lt (entry m i) js2 k NaN 0 Hk). }
    rewrite Q. apply H. now apply nth_In.
Qed.
Print Assumptions C47_dense.
(** Columns first is better here: the third column goes, and both rows stay. *)
Example C47_choice_example :
  drop (Q2Qc (8 # 10)) (Q2Qc (4 # 10)) 1 [z 1; z 2; z 3] [[z 1; z 2; NaN]; [z 4; z 5; NaN]] = ([z 1; z 2], [[z 1; z 2]; [z 4; z 5]])
  /\ drop_option_2 (Q2Qc (8 # 10)) (Q2Qc (4 # 10)) 1 [z 1; z 2; z 3] [[z 1; z 2; NaN]; [z 4; z 5; NaN]] = ([z 1; z 2; z 3], [])
  /\ rectangular 3 [[z 1; z 2; NaN]; [z 4; z 5; NaN]].
Proof. split; [vm_compute; reflexivity|]. split; [vm_compute; reflexivity|]. repeat constructor. Qed.
