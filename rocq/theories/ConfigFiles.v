(** The configuration files the package ships and the parameters its nodes read:
    msf_updates/*_sensor_fix.yaml, msf_updates/launch/*.launch, the constructors of the managers and
    sensor handlers, and the .cfg files.  Definitions only.  Names are resolved as roscpp and
    roslaunch document it (they are not part of the repository); a plain YAML scalar gets its type by
    the regular expressions of YAML 1.1 as PyYAML has them.  Simplifications: octal, hexadecimal and sexagesimal numbers,
    infinities, not-a-number, underscores and the one-letter truth values are left out of the
    scalars; no name is a parameter and a namespace at once; remappings of parameter names, of which
    the launch files have none, are left out; the last of several remappings of a name counts. *)

From Coq Require Import String Ascii List Bool Arith.
Import ListNotations.
Open Scope string_scope.

(** ** Names: lists of their parts *)
Definition path := list string.
(** The parts between slashes, without empty ones ([ros::names::clean]). *)
Fixpoint parts (cur s : string) : path :=
  match s with
  | "" => if cur =? "" then [] else [cur]
  | String c r => if (c =? "/")%char then (if cur =? "" then parts "" r else cur :: parts "" r) else parts (cur ++ String c "") r
  end.
(** A name used in a namespace: global ones start with a slash. *)
Definition resolve (ns : path) (s : string) : path :=
  match s with
  | String c r => if (c =? "/")%char then parts "" s else (ns ++ parts "" s)%list
  | "" => ns
  end.
(** The namespace of [ros::NodeHandle(s)] in a node: private ones start with a tilde. *)
Definition handle (node : path) (s : string) : path :=
  match s with
  | String c r => if (c =? "~")%char then (node ++ parts "" r)%list else resolve [] s
  | "" => []
  end.

(** ** Scalars *)
Inductive kind := KBool | KInt | KFloat | KString.
Definition digit (c : ascii) : bool := let n := nat_of_ascii c in (48 <=? n)%nat && (n <=? 57)%nat.
Definition is_sign (c : ascii) : bool := (c =? "-")%char || (c =? "+")%char.
Fixpoint digits (s : string) : bool := match s with "" => true | String c r => digit c && digits r end.
Definition digits1 (s : string) : bool := match s with "" => false | _ => digits s end.
(** [([eE][-+][0-9]+)?] after the digits behind the point *)
Fixpoint fraction (s : string) : bool :=
  match s with
  | "" => true
  | String c r => if digit c then fraction r else
      if (c =? "e")%char || (c =? "E")%char then match r with String g r' => is_sign g && digits1 r' | "" => false end else false
  end.
(** after the sign; [b]: a digit has been seen *)
Fixpoint number (b : bool) (s : string) : kind :=
  match s with
  | "" => if b then KInt else KString
  | String c r => if digit c then number true r else
      if (c =? ".")%char then (if b && fraction r then KFloat else KString) else KString
  end.
Definition words : list string :=
  ["true"; "True"; "TRUE"; "false"; "False"; "FALSE"; "yes"; "Yes"; "YES"; "no"; "No"; "NO"; "on"; "On"; "ON"; "off"; "Off"; "OFF"].
Definition scalar (s : string) : kind :=
  if existsb (String.eqb s) words then KBool else
  match s with
  | String c r =>
      if is_sign c then number false r else
      if (c =? ".")%char then match r with String d r' => if digit d && fraction r' then KFloat else KString | "" => KString end
      else number false s
  | "" => KString
  end.

(** ** The parameter server: the last value set is the one found *)
Definition server := list (path * string).
Fixpoint path_eqb (a b : path) : bool :=
  match a, b with
  | [], [] => true
  | x :: a', y :: b' => (x =? y) && path_eqb a' b'
  | _, _ => false
  end.
Definition lookup (s : server) (p : path) : option string :=
  fold_left (fun found x => if path_eqb (fst x) p then Some (snd x) else found) s None.
(** A line of a file loaded inside of the node element. *)
Record line := Line { key : string; text : string }.
Definition load (node : path) (file : list line) : server := map (fun l => (resolve node (key l), text l)) file.

(** ** What a node reads: [ros::NodeHandle(from).param(name, ...)] *)
Inductive want := WBool | WDouble | WString.
Record read := Read { from : string; name : string; wants : want }.
Definition accepts (w : want) (k : kind) : bool :=
  match w, k with
  | WBool, KBool | WDouble, KInt | WDouble, KFloat | WString, KString => true
  | _, _ => false
  end.
Definition target (node : path) (r : read) : path := resolve (handle node (from r)) (name r).
(** [None]: the default stays. *)
Definition reading (node : path) (s : server) (r : read) : option string :=
  match lookup s (target node r) with
  | Some t => if accepts (wants r) (scalar t) then Some t else None
  | None => None
  end.

(** ** The reads of the nodes *)
(** msf_core/include/msf_core/msf_sensormanagerROS.h lines 85-95, msf_core/cfg/MSF_Core.cfg lines 51-55 *)
Definition core_reads : list read :=
  [Read "~core" "data_playback" WBool; Read "~core" "msf_output_frame" WString; Read "~core" "odometry_child_frame" WString;
   Read "~core" "tf_target_frame" WString; Read "~core" "enable_tcp_no_delay" WBool; Read "~core" "core_fixed_bias" WBool;
   Read "~core" "core_noise_acc" WDouble; Read "~core" "core_noise_accbias" WDouble; Read "~core" "core_noise_gyr" WDouble;
   Read "~core" "core_noise_gyrbias" WDouble].
(** pose_sensor_handler/implementation/pose_sensorhandler.hpp lines 36-50, without distortion *)
Definition pose_handler_reads : list read :=
  map (fun x => Read "~/pose_sensor" (fst x) (snd x))
    [("pose_absolute_measurements", WBool); ("pose_measurement_world_sensor", WBool); ("pose_use_fixed_covariance", WBool);
     ("enable_tcp_no_delay", WBool); ("pose_measurement_minimum_dt", WDouble); ("enable_mah_outlier_rejection", WBool);
     ("mah_threshold", WDouble)].
(** position_sensor_handler/implementation/position_sensorhandler.hpp lines 34-41 *)
Definition position_handler_reads : list read :=
  map (fun x => Read "~/position_sensor" (fst x) (snd x))
    [("position_use_fixed_covariance", WBool); ("enable_tcp_no_delay", WBool); ("position_absolute_measurements", WBool);
     ("enable_mah_outlier_rejection", WBool); ("mah_threshold", WDouble)].
(** pressure_sensor_handler/implementation/pressure_sensorhandler.hpp lines 30-37 *)
Definition pressure_handler_reads : list read :=
  map (fun x => Read "~/pressure_sensor" (fst x) (snd x))
    [("enable_tcp_no_delay", WBool); ("enable_mah_outlier_rejection", WBool); ("mah_threshold", WDouble)].
(** pose_sensormanager.h lines 186-194 (pose_pressure_sensormanager.h 147-155, position_pose_sensormanager.h
    162-170), position_sensormanager.h lines 133-136 (position_pose_sensormanager.h 176-178) *)
Definition ic_reads : list read :=
  map (fun x => Read "~" ("pose_sensor/init/" ++ x) WDouble) ["p_ic/x"; "p_ic/y"; "p_ic/z"; "q_ic/w"; "q_ic/x"; "q_ic/y"; "q_ic/z"].
Definition ip_reads : list read :=
  map (fun x => Read "~" ("position_sensor/init/" ++ x) WDouble) ["p_ip/x"; "p_ip/y"; "p_ip/z"].
(** The parameters of the .cfg files: SinglePoseSensor.cfg lines 37-56 (the same in PosePressureSensor.cfg 39-58 and
    PositionPoseSensor.cfg 38-57), PosePressureSensor.cfg 61-63, SinglePositionSensor.cfg 35-41, PositionPoseSensor.cfg 59-64 *)
Definition pose_cfg : list (string * want) :=
  [("core_init_filter", WBool); ("core_set_height", WBool); ("core_height", WDouble); ("pose_initial_scale", WDouble);
   ("pose_fixed_scale", WBool); ("pose_fixed_p_ic", WBool); ("pose_fixed_q_ic", WBool); ("pose_fixed_p_wv", WBool);
   ("pose_fixed_q_wv", WBool); ("pose_noise_scale", WDouble); ("pose_noise_p_wv", WDouble); ("pose_noise_q_wv", WDouble);
   ("pose_noise_p_ic", WDouble); ("pose_noise_q_ic", WDouble); ("pose_noise_meas_p", WDouble); ("pose_noise_meas_q", WDouble);
   ("pose_delay", WDouble)].
Definition pressure_cfg : list (string * want) :=
  [("press_noise_meas_p", WDouble); ("press_noise_bias_p", WDouble); ("press_reset", WBool)].
Definition position_cfg : list (string * want) :=
  [("position_noise_meas", WDouble); ("position_yaw_init", WDouble); ("position_delay", WDouble); ("position_noise_p_ip", WDouble);
   ("position_fixed_p_ip", WBool)].
Definition server_reads (ns : string) (l : list (string * want)) : list read := map (fun x => Read ns (fst x) (snd x)) l.

(** pose_sensormanager.h line 50, position_sensormanager.h 52, pose_pressure_sensormanager.h 49,
    position_pose_sensormanager.h 55 *)
Definition pose_reads : list read :=
  (core_reads ++ pose_handler_reads ++ ic_reads ++ server_reads "~/pose_sensor" pose_cfg)%list.
Definition position_reads : list read :=
  (core_reads ++ position_handler_reads ++ ip_reads ++ server_reads "~/position_sensor" (("core_init_filter", WBool) :: position_cfg))%list.
Definition pose_pressure_reads : list read :=
  (core_reads ++ pose_handler_reads ++ pressure_handler_reads ++ ic_reads ++
   server_reads "~/pose_pressure_sensor" (pose_cfg ++ pressure_cfg))%list.
Definition position_pose_reads : list read :=
  (core_reads ++ pose_handler_reads ++ position_handler_reads ++ ic_reads ++ ip_reads ++
   server_reads "~/position_pose_sensor" (pose_cfg ++ position_cfg))%list.

(** ** The files, without comments *)
(** msf_updates/pose_sensor_fix.yaml *)
Definition pose_file : list line :=
  [Line "data_playback" "true"; Line "core/core_noise_acc" "0.0022563";
   Line "core/core_noise_gyr" "0.0004"; Line "core/core_fixed_bias" "false";
   Line "core/core_noise_accbias" "8e-5"; Line "core/core_noise_gyrbias" "3e-6";
   Line "core/enable_tcp_no_delay" "false"; Line "pose_sensor/pose_absolute_measurements" "true";
   Line "pose_sensor/enable_tcp_no_delay" "false"; Line "pose_sensor/pose_measurement_world_sensor" "false";
   Line "pose_sensor/pose_delay" "0.02"; Line "pose_sensor/pose_use_fixed_covariance" "false";
   Line "pose_sensor/pose_noise_meas_p" "0.01"; Line "pose_sensor/pose_noise_meas_q" "0.02";
   Line "pose_sensor/pose_initial_scale" "1"; Line "pose_sensor/pose_fixed_scale" "false";
   Line "pose_sensor/pose_noise_scale" "0.0"; Line "pose_sensor/pose_fixed_p_wv" "false";
   Line "pose_sensor/pose_noise_p_wv" "0.0"; Line "pose_sensor/pose_fixed_q_wv" "false";
   Line "pose_sensor/pose_noise_q_wv" "0.0"; Line "pose_sensor/pose_fixed_p_ic" "false";
   Line "pose_sensor/pose_noise_p_ic" "0.0"; Line "pose_sensor/pose_fixed_q_ic" "false";
   Line "pose_sensor/pose_noise_q_ic" "0.0"; Line "pose_sensor/init/q_ic/w" "0.0";
   Line "pose_sensor/init/q_ic/x" "1"; Line "pose_sensor/init/q_ic/y" "-1";
   Line "pose_sensor/init/q_ic/z" "0"; Line "pose_sensor/init/p_ic/x" "0.0";
   Line "pose_sensor/init/p_ic/y" "0.0"; Line "pose_sensor/init/p_ic/z" "-0.08"].
(** msf_updates/position_sensor_fix.yaml *)
Definition position_file : list line :=
  [Line "scale_init" "1"; Line "data_playback" "true";
   Line "core/core_fixed_bias" "0"; Line "core/enable_tcp_no_delay" "false";
   Line "core/core_noise_acc" "0.083"; Line "core/core_noise_accbias" "0.0083";
   Line "core/core_noise_gyr" "0.0013"; Line "core/core_noise_gyrbias" "0.00013";
   Line "position_sensor/position_noise_meas" "0.01"; Line "position_sensor/position_fixed_ppi" "true";
   Line "position_sensor/position_delay" "0.2"; Line "position_sensor/init/p_ip/x" "0.02";
   Line "position_sensor/init/p_ip/y" "-0.05"; Line "position_sensor/init/p_ip/z" "0.05";
   Line "position_sensor/position_absolute_measurements" "true"; Line "position_sensor/position_use_fixed_covariance" "true";
   Line "position_sensor/position_measurement_world_sensor" "true"; Line "position_sensor/enable_tcp_no_delay" "false"].
(** msf_updates/pose_pressure_sensor_fix.yaml *)
Definition pose_pressure_file : list line :=
  [Line "data_playback" "true"; Line "core/core_fixed_bias" "false";
   Line "core/enable_tcp_no_delay" "false"; Line "core/core_noise_acc" "0.083";
   Line "core/core_noise_accbias" "0.0083"; Line "core/core_noise_gyr" "0.0013";
   Line "core/core_noise_gyrbias" "0.00013"; Line "pose_sensor/pose_fixed_scale" "false";
   Line "pose_sensor/pose_noise_scale" "0.0"; Line "pose_sensor/pose_noise_p_wv" "0.0";
   Line "pose_sensor/pose_noise_q_wv" "0.0"; Line "pose_sensor/pose_noise_q_ic" "0.0";
   Line "pose_sensor/pose_noise_p_ic" "0.0"; Line "pose_sensor/pose_delay" "0.02";
   Line "pose_sensor/pose_noise_meas_p" "0.01"; Line "pose_sensor/pose_noise_meas_q" "0.02";
   Line "pose_sensor/pose_initial_scale" "1"; Line "pose_sensor/init/q_ic/w" "0";
   Line "pose_sensor/init/q_ic/x" "0"; Line "pose_sensor/init/q_ic/y" "0";
   Line "pose_sensor/init/q_ic/z" "1"; Line "pose_sensor/init/p_ic/x" "0.0745374";
   Line "pose_sensor/init/p_ic/y" "-0.086751"; Line "pose_sensor/init/p_ic/z" "0.0123919";
   Line "pose_sensor/pose_fixed_scale" "false"; Line "pose_sensor/pose_fixed_p_ic" "false";
   Line "pose_sensor/pose_fixed_q_ic" "false"; Line "pose_sensor/pose_fixed_p_wv" "false";
   Line "pose_sensor/pose_fixed_q_wv" "false"; Line "pose_sensor/pose_absolute_measurements" "true";
   Line "pose_sensor/pose_use_fixed_covariance" "false"; Line "pose_sensor/pose_measurement_world_sensor" "false";
   Line "pose_sensor/enable_tcp_no_delay" "false"].
(** msf_updates/position_pose_sensor_fix.yaml *)
Definition position_pose_file : list line :=
  [Line "data_playback" "true"; Line "core/core_fixed_bias" "false";
   Line "core/enable_tcp_no_delay" "false"; Line "core/core_noise_acc" "0.083";
   Line "core/core_noise_accbias" "0.0083"; Line "core/core_noise_gyr" "0.0013";
   Line "core/core_noise_gyrbias" "0.00013"; Line "pose_sensor/pose_fixed_scale" "false";
   Line "pose_sensor/pose_noise_scale" "0.0"; Line "pose_sensor/pose_noise_p_wv" "0.0";
   Line "pose_sensor/pose_noise_q_wv" "0.0"; Line "pose_sensor/pose_noise_q_ic" "0.0";
   Line "pose_sensor/pose_noise_p_ic" "0.0"; Line "pose_sensor/pose_delay" "0.02";
   Line "pose_sensor/pose_noise_meas_p" "0.01"; Line "pose_sensor/pose_noise_meas_q" "0.02";
   Line "pose_sensor/pose_initial_scale" "1"; Line "pose_sensor/init/q_ic/w" "0.0";
   Line "pose_sensor/init/q_ic/x" "1"; Line "pose_sensor/init/q_ic/y" "-1";
   Line "pose_sensor/init/q_ic/z" "0.0"; Line "pose_sensor/init/p_ic/x" "0.065";
   Line "pose_sensor/init/p_ic/y" "0.06"; Line "pose_sensor/init/p_ic/z" "-0.10";
   Line "position_pose_sensor/pose_fixed_scale" "false"; Line "position_pose_sensor/pose_fixed_p_ic" "false";
   Line "position_pose_sensor/pose_fixed_q_ic" "false"; Line "position_pose_sensor/pose_fixed_p_wv" "false";
   Line "position_pose_sensor/pose_fixed_q_wv" "false"; Line "position_pose_sensor/enable_tcp_no_delay" "false";
   Line "pose_sensor/pose_absolute_measurements" "false"; Line "pose_sensor/pose_use_fixed_covariance" "false";
   Line "pose_sensor/pose_measurement_world_sensor" "false"; Line "pose_sensor/enable_tcp_no_delay" "false";
   Line "position_pose_sensor/position_delay" "0.001"; Line "position_pose_sensor/position_noise_meas" "0.1";
   Line "position_sensor/init/p_ip/x" "0#-0.02"; Line "position_sensor/init/p_ip/y" "0#0.05";
   Line "position_sensor/init/p_ip/z" "0.05"; Line "position_pose_sensor/core_height" "1.8";
   Line "position_pose_sensor/position_yaw_init" "-128.0"; Line "position_pose_sensor/position_fixed_p_ip" "true";
   Line "position_sensor/position_use_fixed_covariance" "false"; Line "position_sensor/position_absolute_measurements" "true";
   Line "position_sensor/enable_tcp_no_delay" "false"].
(** msf_updates/viconpos_sensor_fix.yaml *)
Definition viconpos_file : list line :=
  [Line "/pose_sensor/core/data_playback" "false"; Line "/pose_sensor/core/fixed_bias" "0";
   Line "/pose_sensor/core/enable_tcp_no_delay" "false"; Line "/pose_sensor/core/core_noise_acc" "0.083";
   Line "/pose_sensor/core/core_noise_accbias" "0.0083"; Line "/pose_sensor/core/core_noise_gyr" "0.0013";
   Line "/pose_sensor/core/core_noise_gyrbias" "0.00013"; Line "/pose_sensor/pose_sensor/fixed_scale" "1";
   Line "/pose_sensor/pose_sensor/pose_noise_scale" "0.0"; Line "/pose_sensor/pose_sensor/pose_noise_p_wv" "0.0";
   Line "/pose_sensor/pose_sensor/pose_noise_q_wv" "0.0"; Line "/pose_sensor/pose_sensor/pose_noise_q_ic" "0.0";
   Line "/pose_sensor/pose_sensor/pose_noise_p_ic" "0.0"; Line "/pose_sensor/pose_sensor/pose_delay" "0.002";
   Line "/pose_sensor/pose_sensor/pose_noise_meas_p" "0.005"; Line "/pose_sensor/pose_sensor/pose_noise_meas_q" "0.005";
   Line "/pose_sensor/pose_sensor/init/q_ic/w" "1.0"; Line "/pose_sensor/pose_sensor/init/q_ic/x" "0.0";
   Line "/pose_sensor/pose_sensor/init/q_ic/y" "0.0"; Line "/pose_sensor/pose_sensor/init/q_ic/z" "0.0";
   Line "/pose_sensor/pose_sensor/init/p_ic/x" "0.0"; Line "/pose_sensor/pose_sensor/init/p_ic/y" "0.0";
   Line "/pose_sensor/pose_sensor/init/p_ic/z" "0.0"; Line "/pose_sensor/pose_sensor/pose_fixed_scale" "true";
   Line "/pose_sensor/pose_sensor/pose_fixed_p_ic" "true"; Line "/pose_sensor/pose_sensor/pose_fixed_q_ic" "true";
   Line "/pose_sensor/pose_sensor/pose_fixed_p_wv" "true"; Line "/pose_sensor/pose_sensor/pose_fixed_q_wv" "true";
   Line "/pose_sensor/pose_sensor/pose_absolute_measurements" "true"; Line "/pose_sensor/pose_sensor/pose_use_fixed_covariance" "true";
   Line "/pose_sensor/pose_sensor/pose_measurement_world_sensor" "true"; Line "/pose_sensor/pose_sensor/enable_tcp_no_delay" "false";
   Line "/pose_sensor/pose_sensor/pose_measurement_minimum_dt" "0.05"].

(** ** The launch files: name of the node, and of the file loaded for it; msf_updates/launch *)
Record launch := Launch { node_name : string; program : string; loads : string }.
Definition launches : list launch :=
  [Launch "msf_pose_sensor" "pose_sensor" "pose_sensor_fix.yaml"; Launch "msf_position_filter" "position_sensor" "position_sensor_fix.yaml";
   Launch "msf_position_pose_sensor" "position_pose_sensor" "position_pose_sensor_fix.yaml";
   Launch "msf_pose_pressure_sensor" "pose_pressure_sensor" "pose_pressure_sensor_fix.yaml";
   Launch "pose_sensor" "pose_sensor" "aslam_sensor_fix.yaml"; Launch "msf_viconpos_sensor" "pose_sensor" "viconpos_sensor_fix.yaml"].
(** The files that exist, and the reads of the programs. *)
Definition shipped (f : string) : option (list line) :=
  if f =? "pose_sensor_fix.yaml" then Some pose_file else
  if f =? "position_sensor_fix.yaml" then Some position_file else
  if f =? "pose_pressure_sensor_fix.yaml" then Some pose_pressure_file else
  if f =? "position_pose_sensor_fix.yaml" then Some position_pose_file else
  if f =? "viconpos_sensor_fix.yaml" then Some viconpos_file else None.
Definition reads_of (p : string) : list read :=
  if p =? "pose_sensor" then pose_reads else
  if p =? "position_sensor" then position_reads else
  if p =? "pose_pressure_sensor" then pose_pressure_reads else
  if p =? "position_pose_sensor" then position_pose_reads else [].

(** ** Topics: the handles of the subscriptions and publications and their names *)
Definition topic := (string * string)%type.
Definition resolved (ns : path) (t : topic) : path := resolve (resolve ns (fst t)) (snd t).
(** The topic after the remappings of the launch file, lines from - to. *)
Definition connected (ns : path) (remaps : list line) (t : topic) : path :=
  match lookup (load ns remaps) (resolved ns t) with Some s => resolve ns s | None => resolved ns t end.
(** msf_IMUHandler_ROS.h lines 36-55, msf_sensormanagerROS.h lines 97-114 *)
Definition core_topics : list topic :=
  map (pair "msf_core") ["imu_state_input"; "hl_state_input"; "state_out"; "correction"; "pose"; "odometry"; "pose_after_update";
    "ext_state"; "cov_core"; "cov_aux"; "cov_core_aux"].
(** pose_sensorhandler.hpp lines 75-92, position_sensorhandler.hpp lines 58-70, pressure_sensorhandler.hpp lines 31-45 *)
Definition pose_topics : list topic :=
  map (pair "msf_updates/") ["pose_with_covariance_input"; "transform_input"; "pose_input"; "odometry_input"].
Definition position_topics : list topic := map (pair "msf_updates/") ["position_input"; "transform_input"; "navsatfix_input"].
Definition pressure_topics : list topic := [("msf_updates", "pressure_height")].
(** msf_distort/src/msf_distort.cc lines 41-50 and 107-118 *)
Definition distort_topics : list topic :=
  map (pair "msf_distort") ["pose_with_covariance_output"; "transform_output"; "pose_output"; "navsatfix_output"; "point_output";
    "pose_with_covariance_input"; "transform_input"; "pose_input"; "navsatfix_input"; "point_input"].
Definition topics_of (p : string) : list topic :=
  if p =? "pose_sensor" then (core_topics ++ pose_topics)%list else
  if p =? "position_sensor" then (core_topics ++ position_topics)%list else
  if p =? "pose_pressure_sensor" then (core_topics ++ pose_topics ++ pressure_topics)%list else
  if p =? "position_pose_sensor" then (core_topics ++ pose_topics ++ position_topics)%list else
  if p =? "msf_distort" then distort_topics else [].
(** The remappings of the launch files: msf_updates/launch, msf_distort/launch *)
Definition remappings : list (string * list line) :=
  [("pose_sensor", [Line "msf_core/imu_state_input" "/bluebird/fcu/imu"; Line "msf_updates/pose_with_covariance_input" "vslam/pose"]);
   ("position_sensor", [Line "msf_core/hl_state_input" "/auk/fcu/ekf_state_out"; Line "msf_core/correction" "/auk/fcu/ekf_state_in";
     Line "msf_updates/position_input" "/leica/position"; Line "msf_updates/navsatfix_input" "/auk/fcu/gps";
     Line "msf_core/imu_state_input" "/auk/fcu/imu"]);
   ("position_pose_sensor", [Line "msf_core/imu_state_input" "/auk/fcu/imu"; Line "msf_updates/navsatfix_input" "/msf_distort/navsatfix_output";
     Line "msf_updates/pose_with_covariance_input" "/msf_distort/pose_with_covariance_output"]);
   ("pose_pressure_sensor", [Line "msf_core/hl_state_input" "/bluebird/fcu/ekf_state_out";
     Line "msf_updates/pose_with_covariance_input" "/bluebird/down/vslam/pose"; Line "msf_updates/pressure_height" "/bluebird/fcu/pressure_height";
     Line "msf_core/correction" "/bluebird/fcu/ekf_state_in"]);
   ("pose_sensor", [Line "msf_core/imu_state_input" "imu0"; Line "msf_updates/pose_with_covariance_input" "/aslam/aslam_pose"]);
   ("pose_sensor", [Line "msf_core/hl_state_input" "/fcu/ekf_state_out"; Line "msf_core/correction" "/fcu/ekf_state_in";
     Line "msf_updates/transform_input" "/vicon/robot_name/robot_name"]);
   ("msf_distort", [Line "msf_distort/position_input" "/leica/position"; Line "msf_distort/navsatfix_input" "/auk/fcu/gps";
     Line "msf_distort/transform_input" "vicon/auk/auk"; Line "msf_distort/pose_with_covariance_input" "/auk/down/vslam/pose"])].
