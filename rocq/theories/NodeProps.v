(** Property theorems for the transform buffer, the state machine helper and the avoidance node (C16-C22). *)
From Coq Require Import ZArith Reals List Bool String.
From Flocq Require Import Core BinarySingleNaN.
From Verif Require Import Num TfModel TfSpec TfProofs UsmModel NodeModel NodeSpec NodeProofs.
Import ListNotations.
Local Open Scope Z_scope.

(** C16. After any history of insertions no operation was undefined and the buffer holds for every frame
    pair exactly the transforms that were newer than all earlier ones, limited to the configured duration. *)
Theorem C16_buffer_contents :
  forall (X : Type) (size : Z) (l : list (ins X)), 0 <= size ->
  exists b, tb_run X (tb_new X size) l = Some b /\ tb_size b = size /\
  forall s t, stored b s t = recent size (records (offered s t l)).
Proof. exact run_spec. Qed.
Print Assumptions C16_buffer_contents.
Theorem C16_sorted_and_bounded :
  forall (X : Type) (size : Z) (l : list (ins X)) (b : tfbuf X) (s t : string), 0 <= size ->
  tb_run X (tb_new X size) l = Some b ->
  increasing (stored b s t) /\
  (forall x y, In x (stored b s t) -> In y (stored b s t) -> st_time y - st_time x <= size).
Proof. exact run_sorted_bounded. Qed.
Print Assumptions C16_sorted_and_bounded.
Theorem C16_insert_accepts_newer :
  forall (X : Type) (size : Z) (l : list (ins X)) (b : tfbuf X) (s t : string) (x : stf X) (b' : tfbuf X) (r : bool),
  0 <= size -> tb_run X (tb_new X size) l = Some b -> insertTransform X b s t x = Some (b', r) ->
  (r = true <-> forall y, In y (offered s t l) -> st_time y < st_time x) /\
  (r = false -> forall s' t', stored b' s' t' = stored b s' t') /\
  (forall s' t', getKey s' t' <> getKey s t -> stored b' s' t' = stored b s' t').
Proof. exact insert_accepts. Qed.
Print Assumptions C16_insert_accepts_newer.
Example C16_example : exists b,
  tb_run Z (tb_new Z 10) [("a", "b", Stf 0 0); ("a", "b", Stf 8 1); ("a", "b", Stf 8 2); ("c", "b", Stf 3 3); ("a", "b", Stf 12 4)]%string = Some b /\
  stored b "a" "b" = [Stf 8 1; Stf 12 4] /\ stored b "c" "b" = [Stf 3 3].
Proof. eexists. repeat split; reflexivity. Qed.

(** C17 *)
Theorem C17_lookup_result :
  forall (X : Type) (lerp : X -> X -> f32 -> X) (size : Z) (l : list (ins X)) (b : tfbuf X) (s t : string) (time : Z) (out : stf X),
  0 <= size -> tb_run X (tb_new X size) l = Some b ->
  let q := stored b s t in
  match getTransform X lerp b s t time out with
  | (true, o) => exists before e f after, q = before ++ e :: f :: after /\ st_time e <= time <= st_time f /\
                   o = Stf time (lerp (st_val e) (st_val f) (tau (st_time e) (st_time f) time))
  | (false, o) => o = out /\
      ~ (exists i j e f, i <> j /\ nth_error q i = Some e /\ nth_error q j = Some f /\ st_time e <= time <= st_time f)
  end.
Proof. exact get_spec. Qed.
Print Assumptions C17_lookup_result.
Theorem C17_lookup_succeeds_iff_bracketed :
  forall (X : Type) (lerp : X -> X -> f32 -> X) (size : Z) (l : list (ins X)) (b : tfbuf X) (s t : string) (time : Z) (out : stf X),
  0 <= size -> tb_run X (tb_new X size) l = Some b ->
  (fst (getTransform X lerp b s t time out) = true <->
   exists i j e f, i <> j /\ nth_error (stored b s t) i = Some e /\ nth_error (stored b s t) j = Some f /\
     st_time e <= time <= st_time f).
Proof. exact get_success_iff. Qed.
Print Assumptions C17_lookup_succeeds_iff_bracketed.
(** the interpolation weight as computed in binary32 is never an extrapolation and exact at the ends *)
Theorem C17_weight_in_unit_interval :
  forall e l t : Z, e < l -> l - e <= 2 ^ 63 -> e <= t <= l ->
  is_finite (tau e l t) = true /\ (0 <= B2R (tau e l t) <= 1)%R /\
  (t = e -> B2R (tau e l t) = 0%R) /\ (t = l -> B2R (tau e l t) = 1%R).
Proof. exact tau_range. Qed.
Print Assumptions C17_weight_in_unit_interval.
Example C17_example : exists b, tb_run Z (tb_new Z 10) [("a", "b", Stf 0 7); ("a", "b", Stf 8 9)]%string = Some b /\
  fst (getTransform Z (fun x _ _ => x) b "a" "b" 3 (Stf 0 0)) = true /\
  fst (getTransform Z (fun x _ _ => x) b "a" "b" 9 (Stf 0 0)) = false.
Proof. eexists. repeat split; reflexivity. Qed.

(** C18. Keys are unambiguous as long as no source frame name followed by '_' contains "_to_" ... *)
Theorem C18_separate_histories_partial :
  forall s1 t1 s2 t2 : string, no_to s1 -> no_to s2 -> (s1, t1) <> (s2, t2) -> getKey s1 t1 <> getKey s2 t2.
Proof. exact (fun s1 t1 s2 t2 n1 n2 ne e => match keys_distinct s1 t1 s2 t2 n1 n2 e with conj a b => ne (f_equal2 pair a b) end). Qed.
Print Assumptions C18_separate_histories_partial.
Example C18_example : no_to "camera_front_link" /\ no_to "fcu" /\ no_to "base_link".
Proof. repeat split; apply has_to_no; reflexivity. Qed.
(** ... and ambiguous otherwise: transforms inserted for one pair are returned for another. *)
Theorem C18_separate_histories_refuted :
  forall (X : Type) (x : X),
  exists s1 t1 s2 t2 b, (s1, t1) <> (s2, t2) /\
    tb_run X (tb_new X 10) [(s1, t1, Stf 0 x); (s1, t1, Stf 2 x)] = Some b /\
    forall lerp out, fst (getTransform X lerp b s2 t2 1 out) = true.
Proof. exact key_collision. Qed.
Print Assumptions C18_separate_histories_refuted.

(** C19 *)
Theorem C19_step_follows_table :
  forall (S C : Type) (S_eqb : S -> S -> bool) (run : S -> C -> transition * C),
  (forall a b, S_eqb a b = true <-> a = b) ->
  forall (tab : usm_table S) (err s : S) (c : C) (s' : S) (c' : C), proper S tab ->
  iterateOnce S C run (chooseNextState S S_eqb tab err) s c = (s', c') ->
  c' = snd (run s c) /\
  (fst (run s c) = REPEAT -> s' = s) /\
  (fst (run s c) <> REPEAT ->
     (forall m s2, In (s, m) tab -> In (fst (run s c), s2) m -> s' = s2) /\
     ((forall m s2, In (s, m) tab -> ~ In (fst (run s c), s2) m) -> s' = err)).
Proof. exact iterateOnce_spec. Qed.
Print Assumptions C19_step_follows_table.
Example C19_example : proper bool [(true, [(NEXT1, false); (ERROR, true)]); (false, [(NEXT1, true)])].
Proof.
  split; [repeat constructor; cbn; intuition congruence|].
  intros s m [[= <- <-]|[[= <- <-]|[]]]; repeat constructor; cbn; intuition congruence.
Qed.

(** C20 *)
Theorem C20_failsafe :
  forall (st : mav_state) (cloud start : Z) (hover : bool) (st' : mav_state) (hover' : bool),
  checkFailsafe true st cloud start hover = (st', hover') ->
  (stale_15s cloud start -> st' = TERMINATION /\ hover' = hover) /\
  (~ stale_15s cloud start -> stale_half_s cloud start -> st' = CRITICAL /\ hover' = true) /\
  (~ stale_15s cloud start -> ~ stale_half_s cloud start ->
     hover' = hover /\ (hover = false -> st' = ACTIVE) /\ (hover = true -> st' = st)).
Proof. exact checkFailsafe_cases. Qed.
Print Assumptions C20_failsafe.
Example C20_example : checkFailsafe true STANDBY 600000000 6000000000 false = (CRITICAL, true) /\
  checkFailsafe true STANDBY 500000000 6000000000 false = (ACTIVE, false) /\
  checkFailsafe true STANDBY 16000000000 14000000000 false = (CRITICAL, true) /\
  checkFailsafe true CRITICAL 16000000000 16000000000 true = (TERMINATION, true).
Proof. repeat split; reflexivity. Qed.

(** C21 *)
Theorem C21_parameters_mirror_last_value :
  forall (N : num) (D : Type) (tofloat : D -> N) (name : string) (get : px4params N -> N) (es : list (pevent D)) (p : px4params N),
  float_member name = Some get ->
  get (fold_left (pstep N D tofloat) es p) = last_delivered tofloat name (get p) es.
Proof. exact history_delivers. Qed.
Print Assumptions C21_parameters_mirror_last_value.
Theorem C21_auto_mode :
  forall (N : num) (D : Type) (tofloat : D -> N) (e : pevent D) (p : px4params N),
  auto_mode (pstep N D tofloat p e) =
  match e with EMsg m => if String.eqb (p_id m) "MPC_AUTO_MODE" then to_int32 (p_int m) else auto_mode p | EPoll _ => auto_mode p end.
Proof. exact auto_mode_step. Qed.
Print Assumptions C21_auto_mode.
Theorem C21_unknown_names_ignored :
  forall (N : num) (D : Type) (tofloat : D -> N) (m : pmsg D) (p : px4params N),
  float_member (N := N) (p_id m) = None -> p_id m <> "MPC_AUTO_MODE"%string -> px4ParamsCallback N D tofloat p m = p.
Proof. exact unknown_name. Qed.
Print Assumptions C21_unknown_names_ignored.
Theorem C21_initialised_iff_polled_finite :
  forall (N : num) (D : Type) (tofloat : D -> N) (resp : string -> option D) (p : px4params N),
  let (p', ni) := pollParameters N D tofloat resp p in
  ni = false <-> forall name get, polled name = true -> float_member name = Some get -> finiteb N (get p') = true.
Proof. exact poll_flag. Qed.
Print Assumptions C21_initialised_iff_polled_finite.
Example C21_example :
  xy_cruise (fold_left (pstep F32 Z f32_ofZ) [EMsg (Pmsg "MPC_XY_CRUISE" 3 0); EMsg (Pmsg "CP_DIST" 4 0); EPoll (fun _ => None)] (px4_init F32))
  = (ofZ F32 3 : F32) /\ float_member (N := F32) "CP_DIST" = Some cp_dist /\ float_member (N := F32) "MPC_FOO" = None.
Proof. repeat split; reflexivity. Qed.

(** C22. The speed type test of the code is [param1 - 1 < FLT_MIN], i.e. "at most one" ... *)
Theorem C22_mission_speed_partial :
  forall (N : num) (items : list (wpt N)) (speed : N),
  let ok := fun p1 => ltb N (sub N p1 (ofZ N 1)) (flt_min N) in
  (exists i, is_current_index items i /\
     ((exists v, closest_speed_change ok items i v /\ missionCallback N items speed = v) \/
      ((forall j w, (j <= i)%nat -> nth_error items j = Some w -> ~ speed_change ok w) /\ missionCallback N items speed = speed))) \/
  ((forall w, In w items -> w_current w = false) /\ missionCallback N items speed = speed).
Proof. exact missionCallback_spec. Qed.
Print Assumptions C22_mission_speed_partial.
(** ... so an airspeed item (type 0) after the ground-speed item overrides the ground speed. *)
Theorem C22_mission_speed_refuted :
  exists (items : list (wpt F32)) (i : nat),
  is_current_index items i /\ closest_speed_change (fun p1 => eqb F32 p1 (ofZ F32 1)) items i (ofZ F32 3) /\
  missionCallback F32 items (nanv F32) = ofZ F32 7.
Proof. exact mission_refuted. Qed.
Print Assumptions C22_mission_speed_refuted.
