(** Property theorems for the world display (C103). *)
From Coq Require Import ZArith List Bool String Ascii Lia.
From Verif Require Import Num CommonModel WlModel.
Import ListNotations.
Local Open Scope string_scope.

Fixpoint no_colon (s : string) : Prop := match s with "" => True | String c r => c <> ":"%char /\ no_colon r end.

Lemma split_nonempty s : splitColon s <> [].
Proof. destruct s; cbn; [discriminate|]. destruct (Ascii.eqb a ":"); [discriminate|]. destruct (splitColon s); discriminate. Qed.
(** the locations searched are the colon-separated parts of the search path *)
Theorem C103_locations :
  forall s, String.concat ":" (splitColon s) = s /\ (forall p, In p (splitColon s) -> no_colon p).
Proof.
  induction s as [|c s (IH1 & IH2)].
  - split; [reflexivity|]. intros p [<-|[]]. exact I.
  - cbn [splitColon]. pose proof (split_nonempty s) as N. destruct (splitColon s) as [|q ps] eqn:E; [congruence|].
    destruct (Ascii.eqb_spec c ":") as [->|Hc].
    + split; [change (String.concat ":" ("" :: q :: ps)) with ("" ++ ":" ++ String.concat ":" (q :: ps)); rewrite IH1; reflexivity|].
      intros p [<-|Hp]; [exact I|auto].
    + split.
      * rewrite <- IH1. destruct ps; reflexivity.
      * intros p [<-|Hp]; [split; [exact Hc|apply IH2; now left]|apply IH2; now right].
Qed.
Print Assumptions C103_locations.

Lemma search_spec stat locs uri :
  match searchLocations stat locs uri with
  | Some r => exists pre l post, locs = (pre ++ l :: post)%list /\ r = "file://" ++ l ++ uri /\ regular stat (l ++ uri) = true /\ forall x, In x pre -> regular stat (x ++ uri) = false
  | None => forall x, In x locs -> regular stat (x ++ uri) = false
  end.
Proof.
  induction locs as [|l locs IH]; cbn; [tauto|]. destruct (regular stat (l ++ uri)) eqn:E.
  - exists [], l, locs. split; [reflexivity|]. split; [reflexivity|]. split; [exact E|]. intros x [].
  - destruct (searchLocations stat locs uri).
    + destruct IH as (pre & l' & post & -> & H1 & H2 & H3). exists (l :: pre), l', post. split; [reflexivity|]. split; [exact H1|]. split; [exact H2|].
      intros x [<-|Hx]; auto.
    + intros x [<-|Hx]; auto.
Qed.
Lemma substr_all s : substring 0 (String.length s) s = s.
Proof. induction s as [|c s IH]; cbn; [reflexivity|]. now rewrite IH. Qed.
Lemma substr_model rest : substring 7 (String.length ("model://" ++ rest) - 7) ("model://" ++ rest) = "/" ++ rest.
Proof.
  cbn. now rewrite substr_all.
Qed.

(** A resource model://M is the first file <location>/M of the search path; if the answer is "not found", no location has it. *)
Theorem C103_resolve :
  forall getenv stat gazebo home rest, getenv "GAZEBO_MODEL_PATH" = Some gazebo -> getenv "HOME" = Some home ->
  let locations := splitColon (gazebo ++ ":" ++ home ++ "/.gazebo/models") in
  match resolveUri getenv stat ("model://" ++ rest) with
  | Some (Some r) => exists pre l post, locations = (pre ++ l :: post)%list /\ r = "file://" ++ l ++ "/" ++ rest /\ regular stat (l ++ "/" ++ rest) = true /\
                     forall x, In x pre -> regular stat (x ++ "/" ++ rest) = false
  | Some None => forall x, In x locations -> regular stat (x ++ "/" ++ rest) = false
  | None => False
  end.
Proof.
  intros getenv stat gazebo home rest Hg Hh locations. unfold resolveUri. rewrite Hg, Hh.
  assert (L : (String.length ("model://" ++ rest) <? 7)%nat = false) by (apply Nat.ltb_ge; cbn; lia). rewrite L, substr_model.
  pose proof (search_spec stat locations ("/" ++ rest)) as S. unfold locations in *.
  destruct (searchLocations stat (splitColon (gazebo ++ ":" ++ home ++ "/.gazebo/models")) ("/" ++ rest)); exact S.
Qed.
Print Assumptions C103_resolve.
Example C103_resolve_example :
  let env := fun n => if String.eqb n "HOME" then Some "/root" else if String.eqb n "GAZEBO_MODEL_PATH" then Some "/a:/b" else None in
  let st := fun p => if String.eqb p "/b/tree/t.dae" then Some 33188%Z else if String.eqb p "/a/tree/t.dae" then Some 16877%Z else None in
  resolveUri env st "model://tree/t.dae" = Some (Some "file:///b/tree/t.dae") /\
  splitColon "/a:/b:/root/.gazebo/models" = ["/a"; "/b"; "/root/.gazebo/models"].
Proof. split; reflexivity. Qed.

(** Without GAZEBO_MODEL_PATH (or HOME) in the environment the node has undefined behaviour instead of a "not found". *)
Theorem C103_environment_refuted :
  forall getenv stat uri, getenv "GAZEBO_MODEL_PATH" = None \/ getenv "HOME" = None -> resolveUri getenv stat uri = None.
Proof. intros getenv stat uri [H|H]; unfold resolveUri; rewrite H; [reflexivity|]. destruct (getenv "GAZEBO_MODEL_PATH"); reflexivity. Qed.
Print Assumptions C103_environment_refuted.
(** the test for a regular file accepts a socket (file type bits 0140000) *)
Theorem C103_regular_file_refuted :
  exists mode, (Z.land mode 61440 = 49152)%Z /\ (49152 <> 32768)%Z /\ forall path, regular (fun _ => Some mode) path = true.
Proof. exists 49645%Z. split; [reflexivity|]. split; [discriminate|]. reflexivity. Qed.
Print Assumptions C103_regular_file_refuted.

(** What an object looks like *)
Inductive shape_of {A} getenv stat (o : world_object A) : shape -> Prop :=
| sh_cube : w_type o = "cube" -> shape_of getenv stat o Cube
| sh_sphere : w_type o = "sphere" -> shape_of getenv stat o Sphere
| sh_cylinder : w_type o = "cylinder" -> shape_of getenv stat o Cylinder
| sh_mesh : w_type o = "mesh" -> contains_model (w_mesh o) = false -> shape_of getenv stat o (Mesh (w_mesh o))
| sh_model r : w_type o = "mesh" -> contains_model (w_mesh o) = true -> resolveUri getenv stat (w_mesh o) = Some (Some r) -> shape_of getenv stat o (Mesh r).
Definition invalid {A} getenv stat (o : world_object A) : Prop :=
  (~ In (w_type o) ["mesh"; "cube"; "sphere"; "cylinder"]) \/
  (w_type o = "mesh" /\ contains_model (w_mesh o) = true /\ resolveUri getenv stat (w_mesh o) = Some None).

Lemma toShape_spec {A} getenv stat (o : world_object A) :
  match toShape getenv stat o with Some (Some s) => shape_of getenv stat o s | Some None => invalid getenv stat o
  | None => w_type o = "mesh" /\ contains_model (w_mesh o) = true /\ resolveUri getenv stat (w_mesh o) = None end.
Proof.
  unfold toShape. destruct (String.eqb_spec (w_type o) "mesh") as [E|E1].
  - destruct (contains_model (w_mesh o)) eqn:C; [|now apply sh_mesh]. destruct (resolveUri getenv stat (w_mesh o)) as [[r|]|] eqn:R.
    + now apply sh_model.
    + right. auto.
    + auto.
  - destruct (String.eqb_spec (w_type o) "cube") as [E|E2]; [now apply sh_cube|]. destruct (String.eqb_spec (w_type o) "sphere") as [E|E3]; [now apply sh_sphere|].
    destruct (String.eqb_spec (w_type o) "cylinder") as [E|E4]; [now apply sh_cylinder|]. left. cbn. intuition congruence.
Qed.
Lemma world_spec {A} getenv stat : forall (doc : list (option (world_object A))) c,
  match worldMarkers getenv stat doc c with
  | Some (Some ms) => List.length ms = List.length doc /\
      forall k, (k < List.length doc)%nat -> exists o m, nth_error doc k = Some (Some o) /\ nth_error ms k = Some m /\ m_id m = (c + S k)%nat /\ m_frame m = w_frame o /\
        m_pos m = w_pos o /\ m_quat m = w_quat o /\ m_scale m = w_scale o /\ shape_of getenv stat o (m_shape m)
  | Some None => exists pre o post, doc = (pre ++ Some o :: post)%list /\ invalid getenv stat o
  | None => exists pre x post, doc = (pre ++ x :: post)%list /\ match x with None => True | Some o => w_type o = "mesh" /\ contains_model (w_mesh o) = true /\ resolveUri getenv stat (w_mesh o) = None end
  end.
Proof.
  induction doc as [|[o|] doc IH]; intros c; cbn [worldMarkers].
  - split; [reflexivity|]. cbn. lia.
  - pose proof (toShape_spec getenv stat o) as S. destruct (toShape getenv stat o) as [[sh|]|].
    + specialize (IH (Datatypes.S c)). destruct (worldMarkers getenv stat doc (Datatypes.S c)) as [[ms|]|].
      * destruct IH as (L & P). split; [cbn; lia|]. intros [|k] Hk.
        -- eexists. eexists. split; [reflexivity|]. split; [reflexivity|]. cbn. split; [lia|]. auto.
        -- destruct (P k) as (o' & m & H1 & H2 & H3 & H4); [cbn in Hk; lia|]. exists o', m. cbn. split; [exact H1|]. split; [exact H2|]. split; [lia|exact H4].
      * destruct IH as (pre & o' & post & -> & H). exists (Some o :: pre), o', post. auto.
      * destruct IH as (pre & x & post & -> & H). exists (Some o :: pre), x, post. auto.
    + exists [], o, doc. auto.
    + exists [], (Some o), doc. auto.
  - exists [], None, doc. auto.
Qed.

(** C103. The world is shown completely or not at all: every object of the file once, in order, with its own number, frame, pose, size and
    shape; or nothing, if some object has an unknown type or a model that cannot be found. Any other outcome needs an object without a key. *)
Theorem C103_world :
  forall (A : Type) getenv stat (doc : list (option (world_object A))), getenv "GAZEBO_MODEL_PATH" <> None -> getenv "HOME" <> None ->
  match visualizeRVIZWorld getenv stat doc with
  | Some (Some ms) => List.length ms = List.length doc /\
      forall k, (k < List.length doc)%nat -> exists o m, nth_error doc k = Some (Some o) /\ nth_error ms k = Some m /\ m_id m = S k /\ m_frame m = w_frame o /\
        m_pos m = w_pos o /\ m_quat m = w_quat o /\ m_scale m = w_scale o /\ shape_of getenv stat o (m_shape m)
  | Some None => exists o, In (Some o) doc /\ invalid getenv stat o
  | None => In None doc
  end.
Proof.
  intros A getenv stat doc Hg Hh. pose proof (world_spec getenv stat doc 0) as S. unfold visualizeRVIZWorld. destruct (worldMarkers getenv stat doc 0) as [[ms|]|].
  - destruct S as (L & P). split; [exact L|]. intros k Hk. exact (P k Hk).
  - destruct S as (pre & o & post & -> & H). exists o. split; [apply in_or_app; right; now left|exact H].
  - destruct S as (pre & x & post & -> & H). apply in_or_app. right. left. destruct x as [o|]; [exfalso|reflexivity]. destruct H as (H0 & H1 & H2).
    unfold resolveUri in H2. destruct (getenv "GAZEBO_MODEL_PATH") as [gz|]; [|congruence]. destruct (getenv "HOME") as [hm|]; [|congruence].
    destruct (String.length (w_mesh o) <? 7)%nat eqn:L; [|discriminate]. apply Nat.ltb_lt in L. clear -H1 L. unfold contains_model in H1.
    destruct (String.index 0 "model://" (w_mesh o)) as [n|] eqn:E; [|discriminate]. apply index_correct1 in E.
    assert (B : forall s n m, (String.length (substring n m s) <= String.length s)%nat).
    { clear. induction s as [|c s IH]; intros n m; destruct n, m; cbn; try lia; [specialize (IH 0%nat m)|specialize (IH n 0%nat)|specialize (IH n (S m))]; lia. }
    specialize (B (w_mesh o) n (String.length "model://")). rewrite E in B. cbn in B. lia.
Qed.
Print Assumptions C103_world.
Definition ex_env := fun n : string => if String.eqb n "HOME" then Some "/root" else Some "/a".
Definition ex_obj t m : option (world_object Z) := Some (WO t "local_origin" m (V3 1 2 3)%Z (0, 0, 0, 1)%Z (V3 1 1 1)%Z).
Example C103_world_example :
  option_map (option_map (map m_id)) (visualizeRVIZWorld ex_env (fun _ => Some 33188%Z) [ex_obj "cube" ""; ex_obj "mesh" "model://tree/t.dae"]) = Some (Some [1; 2]%nat) /\
  visualizeRVIZWorld ex_env (fun _ => None) [ex_obj "cube" ""; ex_obj "mesh" "model://tree/t.dae"] = Some None /\
  visualizeRVIZWorld ex_env (fun _ => None) [ex_obj "cone" ""] = Some None.
Proof. split; [|split]; reflexivity. Qed.
(** A world file that does not exist is shown as an empty world, and no failure is reported. *)
Theorem C103_missing_file_refuted :
  forall (A : Type) getenv stat, visualizeRVIZWorld getenv stat ([] : list (option (world_object A))) = Some (Some []).
Proof. reflexivity. Qed.
Print Assumptions C103_missing_file_refuted.
(** The vehicle is drawn at the pose just received, and only if a world is configured. *)
Theorem C103_vehicle :
  forall (A : Type) getenv stat (k : A) world pos q m, positionCallback getenv stat k world pos q = Some (Some m) ->
  world <> "" /\ m_pos m = pos /\ m_quat m = q /\ m_frame m = "local_origin" /\ m_id m = 0%nat /\ m_scale m = V3 k k k.
Proof.
  intros A getenv stat k world pos q m H. unfold positionCallback in H. destruct (String.eqb_spec world ""); [discriminate|].
  destruct (resolveUri _ _ _) as [[r|]|]; try discriminate. injection H as <-. cbn. repeat split; auto.
Qed.
Print Assumptions C103_vehicle.
