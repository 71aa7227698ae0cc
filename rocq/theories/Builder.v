(** Model of SDF_Builder: include/sdf_tools/sdf_builder.hpp and
    src/sdf_tools/sdf_builder.cpp:18-369.

    MoveIt and the ROS service are arguments: scenes, messages, the collision
    check of the little robot at a location, and the service's answer to a
    request.  The URDF and SRDF texts (L75-117), from which MoveIt builds the
    robot, are not modelled, nor is the position in which the robot is left.
    How many cells a grid of the given sizes has is arc_utilities' decision and
    is the argument [d]; likewise [location] (GridIndexToLocation). *)
From Verif Require Import Base Floats Grid SdfGen.

(** Conversion of a float to an integer by truncation, for the uint8_t at
    src/sdf_tools/sdf_builder.cpp:332; infinities and NaN have no value. *)
Definition truncate32 (v : binary32) : option Z :=
  match v with
  | B754_zero _ _ _ => Some 0
  | B754_finite _ _ s m e _ =>
      let a := if e <? 0 then Z.pos m / 2 ^ (- e) else Z.pos m * 2 ^ e in
      Some (if s then - a else a)
  | _ => None
  end.

(** Conversion of the float OOB_value_ to the uint8_t of the grid,
    src/sdf_tools/sdf_builder.cpp:332: truncation, undefined when the result does
    not fit. *)
Definition uint8_of_float (v : binary32) : res Z :=
  match truncate32 v with
  | Some z => if (0 <=? z) && (z <=? 255) then Ok z else UB "float does not fit uint8_t"
  | None => UB "float does not fit uint8_t"
  end.

(** The request of an update: which of the two groups of components it names,
    src/sdf_tools/sdf_builder.cpp:144, L157, L170. *)
Record request := Request { ask_objects : bool; ask_octomap : bool }.

Section Builder.
  Context {scene msg point : Type}.
  Variable fresh_scene : scene.                  (* PlanningScene(urdf, srdf) *)
  Variable use_msg : scene -> msg -> scene.      (* usePlanningSceneMsg *)
  Variable no_answer : msg.                      (* a default-constructed PlanningScene message *)
  Variable collides : scene -> point -> bool.    (* setJointPositions three times, checkCollision *)
  Variable location : idx -> point.
  Variable d : dims.

  (** Members, include/sdf_tools/sdf_builder.hpp:27-40; the pose and the sizes enter
      through [d] and [location]. *)
  Record builder := B {
    b_initialized : bool;
    b_has_sdf : bool;
    b_has_map : bool;
    b_has_scene : bool;
    b_res : binary64;
    b_oob : binary32;
    b_frame : string;
    b_sdf : sdf;
    b_map : grid Z;
    b_scene : option scene                       (* planning_scene_ptr_ *)
  }.

  (** A default-constructed cached_sdf_, include/sdf_tools/sdf_builder.hpp:38. *)
  Definition empty_sdf : sdf := new_sdf (D 0 0 0) zero64 zero32 "".

  (** A default-constructed cached_collmap_,
      include/sdf_tools/sdf_builder.hpp:39. *)
  Definition empty_map : grid Z := mk_grid (D 0 0 0) 0 0.

  (** SDF_Builder(), sdf_builder.hpp:62-68; the sizes, resolution and
      out-of-bounds value stay unset and are never read. *)
  Definition default_builder : builder :=
    B false false false false zero64 zero32 "" empty_sdf empty_map None.

  (** The two constructors with arguments, src/sdf_tools/sdf_builder.cpp:18-58. *)
  Definition new_builder (frame : string) (r : binary64) (oob : binary32) : builder :=
    B true false false false r oob frame empty_sdf empty_map (Some fresh_scene).

  (** The planning scene replaced and has_planning_scene_ set,
      src/sdf_tools/sdf_builder.cpp:148-149. *)
  Definition with_scene (b : builder) (s : scene) : builder :=
    B (b_initialized b) (b_has_sdf b) (b_has_map b) true (b_res b) (b_oob b) (b_frame b)
      (b_sdf b) (b_map b) (Some s).

  (** cached_sdf_ and has_cached_sdf_ set, src/sdf_tools/sdf_builder.cpp:359-360. *)
  Definition with_sdf (b : builder) (s : sdf) : builder :=
    B (b_initialized b) true (b_has_map b) (b_has_scene b) (b_res b) (b_oob b) (b_frame b)
      s (b_map b) (b_scene b).

  (** cached_collmap_ and has_cached_collmap_ set,
      src/sdf_tools/sdf_builder.cpp:324-325. *)
  Definition with_map (b : builder) (g : grid Z) : builder :=
    B (b_initialized b) (b_has_sdf b) true (b_has_scene b) (b_res b) (b_oob b) (b_frame b)
      (b_sdf b) g (b_scene b).

  (** UpdatePlanningSceneFromMessage, sdf_builder.cpp:365-369. *)
  Definition receive_scene (b : builder) (m : msg) : builder * res unit :=
    match b_scene b with
    | Some s => (with_scene b (use_msg s m), Ok tt)
    | None => (b, UB "null planning scene")
    end.

  (** UpdateSDFFromPlanningScene, sdf_builder.cpp:329-363. *)
  Definition sdf_from_scene (b : builder) : builder * res sdf :=
    match b_scene b with
    | None => (b, UB "null planning scene")
    | Some s =>
        match uint8_of_float (b_oob b) with
        | Ok _ =>
            match extract_sdf_grid d (b_res b) (b_res b) (b_res b)
                    (fun i => Ok (collides s (location i))) (b_oob b) (b_frame b) false with
            | Ok (f, _) => (with_sdf b f, Ok f)
            | Throw e => (b, Throw e)
            | UB e => (b, UB e)
            end
        | Throw e => (b, Throw e)
        | UB e => (b, UB e)
        end
    end.

  (** UpdateCollisionMapFromPlanningScene, src/sdf_tools/sdf_builder.cpp:281-327. *)
  Definition map_from_scene (b : builder) : builder * res (grid Z) :=
    match b_scene b with
    | None => (b, UB "null planning scene")
    | Some s =>
        let g := fold_left
          (fun g i => fst (set g i (if collides s (location i) then 1 else 0)))
          (sweep d) (mk_grid d 0 0) in
        (with_map b g, Ok g)
    end.

  (** What the modes ask the service for, src/sdf_tools/sdf_builder.cpp:140-178; the
      modes are include/sdf_tools/sdf_builder.hpp:18-21. *)
  Definition mode_request (mode : Z) : option request :=
    if mode =? 2 then Some (Request true false)
    else if mode =? 1 then Some (Request false true)
    else if mode =? 3 then Some (Request true true)
    else None.

  (** The common part of UpdateSDF (src/sdf_tools/sdf_builder.cpp:119-185) and
      UpdateCollisionMap (L200-266); [build] is the function called at the end.
      [answer] is what the service gives for a request, [None] when the call fails;
      nothing looks at the result of the call. *)
  Definition update {R} (build : builder -> builder * res R) (b : builder) (mode : Z)
      (answer : request -> option msg) : builder * res R :=
    if negb (b_initialized b) then (b, Throw "SDF Builder has not been initialized")
    else if mode =? 0 then
      if b_has_scene b then build b else (b, Throw "No planning scene available")
    else
      match mode_request mode with
      | Some q =>
          let m := match answer q with Some m => m | None => no_answer end in
          match b_scene b with
          | Some s => build (with_scene b (use_msg s m))
          | None => (b, UB "null planning scene")
          end
      | None => (b, Throw "Invalid update mode (mode not recognized)")
      end.

  (** UpdateSDF, src/sdf_tools/sdf_builder.cpp:119-185. *)
  Definition update_sdf := update sdf_from_scene.

  (** UpdateCollisionMap, src/sdf_tools/sdf_builder.cpp:200-266. *)
  Definition update_map := update map_from_scene.

  (** GetCachedSDF, src/sdf_tools/sdf_builder.cpp:187-198. *)
  Definition cached_sdf (b : builder) : res sdf :=
    if b_has_sdf b then Ok (b_sdf b) else Throw "No cached SDF available".

  (** GetCachedCollisionMap, src/sdf_tools/sdf_builder.cpp:268-279. *)
  Definition cached_map (b : builder) : res (grid Z) :=
    if b_has_map b then Ok (b_map b) else Throw "No cached Collision Map available".

  (** Calls by a client that change the builder,
      include/sdf_tools/sdf_builder.hpp:70-76. *)
  Inductive call :=
  | ReceiveScene (m : msg)
  | UpdateSdf (mode : Z) (answer : request -> option msg)
  | UpdateMap (mode : Z) (answer : request -> option msg).

  (** What such a call gives back, include/sdf_tools/sdf_builder.hpp:70-76. *)
  Inductive outcome := Received (r : res unit) | GotSdf (r : res sdf) | GotMap (r : res (grid Z)).

  (** The effect of one call, src/sdf_tools/sdf_builder.cpp:119-185, L200-266,
      L365-369. *)
  Definition do_call (b : builder) (c : call) : builder * outcome :=
    match c with
    | ReceiveScene m => let (b', r) := receive_scene b m in (b', Received r)
    | UpdateSdf mode answer => let (b', r) := update_sdf b mode answer in (b', GotSdf r)
    | UpdateMap mode answer => let (b', r) := update_map b mode answer in (b', GotMap r)
    end.

  (** A history of calls, include/sdf_tools/sdf_builder.hpp:70-76: the builder
      afterwards and each call's outcome. *)
  Fixpoint run (b : builder) (l : list call) : builder * list outcome :=
    match l with
    | [] => (b, [])
    | c :: l' => let (b1, o) := do_call b c in let (b2, os) := run b1 l' in (b2, o :: os)
    end.
End Builder.
Arguments builder : clear implicits.
Arguments call : clear implicits.
