(* Proofs about surveys moved along their line. *)
From Verif Require Import NumFacts PyFacts ArrayModel ArrayProofs TransformModel WorkflowModel ShiftSpec.
Local Open Scope string_scope.
Local Open Scope nat_scope.
Local Open Scope list_scope.
Local Open Scope py_scope.

Section Shift.
  Variable d : Qc.
  Notation mv := (moved d).
  Notation ms := (moved_sensor d).

  (** * What is read off an array *)
  Lemma ltb_shift x y : Qcltb (x + d) (y + d) = Qcltb x y.
  Proof. destruct (Qcltb_spec (x + d) (y + d)) as [H|H], (Qcltb_spec x y) as [G|G]; auto; exfalso; [apply G|apply H]; qclra. Qed.
  Lemma eqb_shift x y : Qceqb (x + d) (y + d) = Qceqb x y.
  Proof. destruct (Qceqb_spec (x + d) (y + d)) as [H|H], (Qceqb_spec x y) as [G|G]; auto; exfalso; [apply G|apply H]; [|congruence]. 
    replace x with (x + d - d)%Qc by ring. rewrite H. ring. Qed.
  Lemma position_moved a : position (mv a) = map (fun x => (x + d)%Qc) (position a).
  Proof. unfold position, moved. cbn [sensors]. now rewrite !map_map. Qed.
  Lemma offset_moved a s : offset_of (mv a) (ms s) = offset_of a s.
  Proof. unfold offset_of. cbn. f_equal. ring. Qed.
  Lemma offsets_moved a : offsets (mv a) = offsets a.
  Proof. unfold offsets. cbn [moved sensors]. rewrite map_map. apply map_ext. intros s. apply offset_moved. Qed.
  Lemma normalized_moved a : position_normalized (mv a) = position_normalized a.
  Proof.
    unfold position_normalized. cbn [moved sensors]. destruct (sensors a) as [|s0 l]; [reflexivity|]. cbn [map]. do 2 f_equal; [cbn; ring|].
    rewrite map_map. apply map_ext. intros s. cbn. ring.
  Qed.
  Lemma diffs_moved l : diffs (map (fun x => (x + d)%Qc) l) = diffs l.
  Proof. induction l as [|x [|y t] IH]; [reflexivity|reflexivity|]. cbn [map diffs] in *. rewrite IH. f_equal. ring. Qed.
  Lemma spacing_moved a : spacing (mv a) = spacing a.
  Proof. unfold spacing. now rewrite position_moved, diffs_moved. Qed.
  Lemma first_moved a : sensors a <> [] -> first_x (mv a) = (first_x a + d)%Qc.
  Proof. unfold first_x. rewrite position_moved. unfold position. destruct (sensors a); [congruence|reflexivity]. Qed.
  Lemma last_map {A B} (f : A -> B) l x y : l <> [] -> last (map f l) y = f (last l x).
  Proof. induction l as [|a [|b t] IH]; intros N; [congruence|reflexivity|]. cbn [map last] in *. apply IH. discriminate. Qed.
  Lemma last_moved a : sensors a <> [] -> last_x (mv a) = (last_x a + d)%Qc.
  Proof. unfold last_x. rewrite position_moved. intros N. apply last_map with (f := fun x => (x + d)%Qc). unfold position. destruct (sensors a); [congruence|discriminate]. Qed.
  Lemma inside_moved a : source_inside (mv a) = source_inside a.
  Proof.
    destruct (sensors a) eqn:S.
    { assert (G : forall b, sensors b = [] -> source_inside b = false).
      { intros b H. unfold source_inside, first_x, last_x, position. rewrite H. cbn. destruct (Qcltb_spec 0 (src_x (src b))) as [A|A], (Qcltb_spec (src_x (src b)) 0) as [B|B]; auto. exfalso; qclra. }
      rewrite !G; auto. cbn. now rewrite S. }
    assert (N : sensors a <> []) by congruence. unfold source_inside. rewrite first_moved, last_moved by exact N. cbn [moved src moved_source src_x]. now rewrite !ltb_shift.
  Qed.
  Lemma flip_moved a : sensors a <> [] -> flip_required (mv a) = flip_required a.
  Proof. intros N. unfold flip_required. rewrite last_moved by exact N. cbn [moved src moved_source src_x]. now rewrite !ltb_shift. Qed.
  Lemma rows_moved {A} (f : series -> A) a : map (fun s => f (ser s)) (sensors (mv a)) = map (fun s => f (ser s)) (sensors a).
  Proof. cbn [moved sensors]. now rewrite map_map. Qed.
  Lemma flipped_moved a : sensors a <> [] -> flipped (mv a) = flipped a.
  Proof. intros N. unfold flipped. now rewrite flip_moved, offsets_moved, (rows_moved amp) by exact N. Qed.
  Lemma mapM_moved {A} (f : sensor -> result A) l : (forall s, f (ms s) = f s) -> mapM f (map ms l) = mapM f l.
  Proof. intros H. induction l as [|s l IH]; [reflexivity|]. cbn [map mapM]. now rewrite H, IH. Qed.
  Lemma matrix_moved a dtr norm : timeseriesmatrix (mv a) dtr norm = timeseriesmatrix a dtr norm.
  Proof.
    unfold timeseriesmatrix. cbn [moved sensors]. rewrite mapM_moved by reflexivity. destruct (sensors a); reflexivity.
  Qed.
  Lemma slant_moved a v : slant_stack (mv a) v = slant_stack a v.
  Proof.
    destruct (sensors a) as [|s l] eqn:S; [unfold slant_stack; cbn [moved sensors]; now rewrite S|].
    assert (N : sensors a <> []) by congruence. unfold slant_stack. rewrite (flipped_moved a N). cbn [moved sensors]. rewrite S. reflexivity.
  Qed.
  Lemma empty_moved g a st : empty_from_array g (mv a) st = empty_from_array g a st.
  Proof. unfold empty_from_array. cbn [moved sensors]. destruct (sensors a); reflexivity. Qed.
  Lemma pick_moved a thr : pick_on_threshold (mv a) thr = after (fun r => (map (fun x => (x + d)%Qc) (fst r), snd r)) (pick_on_threshold a thr).
  Proof.
    unfold pick_on_threshold. rewrite matrix_moved, position_moved. destruct (timeseriesmatrix a true NormEach) as [m|]; cbn [bind after]; [|reflexivity].
    cbn [moved sensors].
    assert (Q : mapM (fun tr => bind (pick_trace thr tr) (fun i => match map ms (sensors a) with [] => Err IndexError | s0 :: _ => pyget (time (ser s0)) (Z.of_nat i) end)) m =
                mapM (fun tr => bind (pick_trace thr tr) (fun i => match sensors a with [] => Err IndexError | s0 :: _ => pyget (time (ser s0)) (Z.of_nat i) end)) m).
    { destruct (sensors a); reflexivity. }
    cbn [map] in Q. etransitivity; [exact (f_equal (fun r => do ts <- r; Ok (map (fun x => (x + d)%Qc) (position a), ts)) Q)|]. clear Q. destruct (mapM _ m); reflexivity.
  Qed.

  (** * Methods that change an array *)
  Lemma for_each_moved (f : sensor -> sensor * result unit) l : (forall s, f (ms s) = (ms (fst (f s)), snd (f s))) ->
    for_each f (map ms l) = (map ms (fst (for_each f l)), snd (for_each f l)).
  Proof.
    intros H. induction l as [|s l IH]; [reflexivity|]. cbn [map for_each]. rewrite H. destruct (f s) as [s' [[]|e]]; cbn [fst snd]; [|reflexivity].
    rewrite IH. destruct (for_each f l) as [t r]. reflexivity.
  Qed.
  Lemma trim_moved b e a : array_trim (mv a) b e = moved_result d (array_trim a b e).
  Proof.
    unfold array_trim, moved_result. cbn [moved sensors]. rewrite for_each_moved.
    - destruct (for_each _ (sensors a)); reflexivity.
    - intros s. unfold sensor_trim. cbn [moved_sensor ser]. destruct (trim (ser s) b e); reflexivity.
  Qed.
  Lemma pad_moved f a : array_zero_pad (mv a) f = moved_result d (array_zero_pad a f).
  Proof.
    unfold array_zero_pad, moved_result. cbn [moved sensors]. rewrite for_each_moved.
    - destruct (for_each _ (sensors a)); reflexivity.
    - intros s. unfold sensor_zero_pad. cbn [moved_sensor ser]. destruct (zero_pad (ser s) f); reflexivity.
  Qed.
  Lemma detrend_moved a : array_detrend (mv a) = mv (array_detrend a).
  Proof. unfold array_detrend, moved, set_sensors. cbn [sensors src]. now rewrite !map_map. Qed.
  Lemma loop_moved mn mx os l : trim_offsets_loop mn mx (combine os (map ms l)) = map ms (trim_offsets_loop mn mx (combine os l)).
  Proof.
    revert l. induction os as [|o os IH]; intros [|s l]; try reflexivity. cbn [map combine trim_offsets_loop]. rewrite IH.
    destruct (Qcltb mn o && Qcltb o mx), (Qcltb mx o); reflexivity.
  Qed.
  Lemma trim_offsets_moved mn mx a : trim_offsets (mv a) mn mx = moved_result d (trim_offsets a mn mx).
  Proof. unfold trim_offsets. rewrite offsets_moved. cbn [moved sensors]. rewrite loop_moved. destruct (trim_offsets_loop mn mx _); reflexivity. Qed.
  Lemma floop_moved mn mx os l : offsets_loop mn mx (combine os (map ms l)) = map ms (offsets_loop mn mx (combine os l)).
  Proof.
    revert l. induction os as [|o os IH]; intros [|s l]; try reflexivity. cbn [map combine offsets_loop]. rewrite IH.
    destruct (flt_lt mn (Fin o) && flt_lt (Fin o) mx), (flt_lt mx (Fin o)); reflexivity.
  Qed.
  Lemma limit_moved mn mx a : limit_offsets (mv a) mn mx = moved_result d (limit_offsets a mn mx).
  Proof. unfold limit_offsets. rewrite offsets_moved. cbn [moved sensors]. rewrite floop_moved. destruct (offsets_loop mn mx _); reflexivity. Qed.
  Lemma line_time_moved l x : line_time (moved_line d l) (x + d) = line_time l x.
  Proof. destruct l as [[x1 t1] [x2 t2]]. cbn. replace (x2 + d - (x1 + d))%Qc with (x2 - x1)%Qc by ring. replace (x + d - (x1 + d))%Qc with (x - x1)%Qc by ring. reflexivity. Qed.
  Lemma indices_moved l t n pos : line_indices (moved_line d l) t n (map (fun x => (x + d)%Qc) pos) = line_indices l t n pos.
  Proof.
    unfold line_indices. pose proof (line_time_moved l) as L. destruct l as [[x1 t1] [x2 t2]]. cbn [moved_line] in *. replace (x2 + d - (x1 + d))%Qc with (x2 - x1)%Qc by ring.
    destruct (Qceqb (x2 - x1) 0); [reflexivity|]. rewrite map_map. f_equal. apply map_ext. intros x. now rewrite L.
  Qed.
  Lemma mute_loop_moved taper n idx l : mute_loop taper n idx (map ms l) = (map ms (fst (mute_loop taper n idx l)), snd (mute_loop taper n idx l)).
  Proof.
    revert l. induction idx as [|[i j] idx IH]; intros [|s l]; try reflexivity. cbn [map mute_loop].
    assert (M : mute_sensor taper n i j (ms s) = (ms (fst (mute_sensor taper n i j s)), snd (mute_sensor taper n i j s))).
    { unfold mute_sensor. cbn [moved_sensor ser]. destruct (bind _ _); reflexivity. }
    rewrite M. destruct (mute_sensor taper n i j s) as [s' [[]|e]]; cbn [fst snd]; [|reflexivity]. rewrite IH. destruct (mute_loop taper n idx l); reflexivity.
  Qed.
  Lemma mute_moved taper ss se a : mute (mv a) taper (option_map (moved_line d) ss) (option_map (moved_line d) se) = moved_result d (mute a taper ss se).
  Proof.
    unfold mute. rewrite position_moved. cbn [moved sensors]. destruct (sensors a) as [|s0 l] eqn:S; [unfold moved_result; cbn; unfold moved; now rewrite S|].
    cbn [map]. change (ser (ms s0)) with (ser s0). destruct (Qceqb (dt (ser s0)) 0); [unfold moved_result; cbn; unfold moved; now rewrite S|].
    set (st := match option_map (moved_line d) ss with Some _ => _ | None => _ end).
    set (sp := match option_map (moved_line d) se with Some _ => _ | None => _ end).
    assert (Q1 : st = match ss with Some l => line_indices l (dt (ser s0)) (Qcabs (delay (ser s0) / dt (ser s0))%Qc) (position a) | None => Ok (map (fun _ => 0%Z) (position a)) end).
    { unfold st. destruct ss; cbn [option_map]; [apply indices_moved|now rewrite map_map]. }
    assert (Q2 : sp = match se with Some l => line_indices l (dt (ser s0)) (Qcabs (delay (ser s0) / dt (ser s0))%Qc) (position a) | None => Ok (map (fun _ => (Z.of_nat (nsamples (ser s0)) - 1)%Z) (position a)) end).
    { unfold sp. destruct se; cbn [option_map]; [apply indices_moved|now rewrite map_map]. }
    rewrite Q1, Q2. clear st sp Q1 Q2. destruct (bind _ _) as [idx|e]; [|unfold moved_result; cbn; unfold moved; now rewrite S].
    change (ms s0 :: map ms l) with (map ms (s0 :: l)). rewrite mute_loop_moved.
    destruct (mute_loop taper (nsamples (ser s0)) idx (s0 :: l)) as [l' r]. reflexivity.
  Qed.
  Lemma mapM_after {A} (f : sensor -> result A) (h : A -> A) l : (forall s, f (ms s) = after h (f s)) -> mapM f (map ms l) = after (map h) (mapM f l).
  Proof.
    intros H. induction l as [|s l IH]; [reflexivity|]. cbn [map mapM]. rewrite H. destruct (f s); [|reflexivity]. cbn [after bind]. rewrite IH. destruct (mapM f l); reflexivity.
  Qed.
  Lemma copy_sensor_moved s : copy_sensor (ms s) = after ms (copy_sensor s).
  Proof. unfold copy_sensor, new_sensor. cbn [moved_sensor ser sx sy sz]. destruct (new_series _ _ _ _); reflexivity. Qed.
  Lemma similar_moved s t : sensor_similar [A_x; A_y; A_z] (ms s) (ms t) = sensor_similar [A_x; A_y; A_z] s t.
  Proof. reflexivity. Qed.
  Lemma existsb_moved x l : existsb (Qceqb (x + d)) (map (fun y => (y + d)%Qc) l) = existsb (Qceqb x) l.
  Proof. induction l as [|y l IH]; [reflexivity|]. cbn [map existsb]. now rewrite eqb_shift, IH. Qed.
  Lemma check_moved e l : forall ps, check_sensors (ms e) (map (fun y => (y + d)%Qc) ps) (map ms l) = check_sensors e ps l.
  Proof.
    induction l as [|s l IH]; intros ps; [reflexivity|]. cbn [map check_sensors]. rewrite similar_moved. destruct (sensor_similar _ e s); [|reflexivity]. cbn [negb].
    change (sx (ms s)) with (sx s + d)%Qc. rewrite existsb_moved. destruct (existsb _ ps); [reflexivity|]. rewrite <- IH, map_app. reflexivity.
  Qed.
  Lemma sort_moved l : sort_sensors (map ms l) = map ms (sort_sensors l).
  Proof.
    assert (I : forall s m, insert_sensor (ms s) (map ms m) = map ms (insert_sensor s m)).
    { intros s m. induction m as [|t m IH]; [reflexivity|]. cbn [map insert_sensor]. change (sx (ms t)) with (sx t + d)%Qc. change (sx (ms s)) with (sx s + d)%Qc.
      rewrite ltb_shift. destruct (Qcltb (sx t) (sx s)); cbn [map]; [now rewrite IH|reflexivity]. }
    unfold sort_sensors. induction l as [|s l IH]; [reflexivity|]. cbn [map fold_right]. rewrite IH. apply I.
  Qed.
  Lemma new_array_moved l s : new_array (map ms l) (moved_source d s) = after mv (new_array l s).
  Proof.
    unfold new_array. destruct l as [|e t]; [reflexivity|]. cbn [map]. pose proof (check_moved e t [sx e]) as C. cbn [map] in C. change (sx (ms e)) with (sx e + d)%Qc.
    rewrite C. destruct (check_sensors e [sx e] t); [|reflexivity]. cbn [bind after]. change (ms e :: map ms t) with (map ms (e :: t)). rewrite sort_moved. reflexivity.
  Qed.
  Lemma copy_moved a : copy_array (mv a) = after mv (copy_array a).
  Proof.
    unfold copy_array. cbn [moved sensors src]. rewrite (mapM_after copy_sensor ms) by apply copy_sensor_moved. destruct (mapM copy_sensor (sensors a)) as [l|]; [|reflexivity].
    cbn [after bind]. apply new_array_moved.
  Qed.
  Lemma xcorrelate_moved sa sd vl vh a : xcorrelate (mv a) sa sd vl vh = moved_result d (xcorrelate a sa sd vl vh).
  Proof.
    unfold xcorrelate. rewrite offsets_moved. destruct (offsets a) as [|o os]; [reflexivity|]. destruct (xcorr_bounds _ _ _ _ _ _) as [[lo hi]|e]; [|reflexivity].
    cbn [moved sensors]. rewrite (mapM_after _ ms); [destruct (mapM _ (sensors a)); reflexivity|].
    intros s. unfold new_sensor. cbn [moved_sensor ser sx sy sz]. destruct (new_series _ _ _ _); reflexivity.
  Qed.
  Lemma pad_opt_moved o a : array_zero_pad_opt (mv a) o = moved_result d (array_zero_pad_opt a o).
  Proof. destruct o as [f|]; cbn [array_zero_pad_opt]; [apply pad_moved|]. cbn [moved sensors]. destruct (sensors a) as [|s l] eqn:S; cbn; unfold moved_result; cbn; unfold moved; now rewrite ?S. Qed.
  Lemma core_moved sp s n fl fh : snr_core sp (mv s) (mv n) fl fh = snr_core sp s n fl fh.
  Proof.
    unfold snr_core, rows_of. rewrite !(rows_moved amp). cbn [moved sensors]. destruct (sensors n) as [|sn ln]; [reflexivity|]. destruct (sensors s) as [|ss ls]; reflexivity.
  Qed.
  Lemma snr_moved sp s n fl fh pad o : snr_from_arrays sp (mv s) (mv n) fl fh pad o =
    ((mv (fst (fst (snr_from_arrays sp s n fl fh pad o))), mv (snd (fst (snr_from_arrays sp s n fl fh pad o)))), snd (snr_from_arrays sp s n fl fh pad o)).
  Proof.
    unfold snr_from_arrays. destruct pad; [|cbn [fst snd]; now rewrite core_moved]. rewrite pad_opt_moved. unfold moved_result.
    destruct (array_zero_pad_opt n o) as [n' [[]|e]]; cbn [fst snd]; [|reflexivity]. rewrite pad_opt_moved. unfold moved_result.
    destruct (array_zero_pad_opt s o) as [s' [[]|e]]; cbn [fst snd]; [|reflexivity]. now rewrite core_moved.
  Qed.
End Shift.
