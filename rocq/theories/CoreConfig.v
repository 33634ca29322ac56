(** The parameters of the core under dynamic reconfiguration: msf_core/cfg/MSF_Core.cfg lines 51-55,
    [Config] and the getters of msf_core/include/msf_core/msf_sensormanagerROS.h lines 141-176.
    Definitions only.  The server is the one of Reconfigure.v: parameters not in a request stay as
    they are, the others are clamped to their ranges. *)

From Coq Require Import Reals List.
From mathcomp Require Import all_ssreflect.
From Verif Require Import ProcNoise Reconfigure.
Import ListNotations.

Record core_params := CoreParams { p_fixed_bias : bool; p_noise : noise }.

(** lines 51-55: defaults, smallest and largest values *)
Definition default_params : core_params :=
  CoreParams false (Noise (2 / 1000) (5 / 100000000) (4 / 10000) (3 / 1000000))%R.
Definition clamp_acc : R -> R := clamp (1 / 10000) (5 / 10).
Definition clamp_accbias : R -> R := clamp (1 / 100000000) (1 / 10).
Definition clamp_gyr : R -> R := clamp (1 / 10000) (5 / 10).
Definition clamp_gyrbias : R -> R := clamp (1 / 10000000) (1 / 10).
Definition clamp_core (p : core_params) : core_params :=
  CoreParams (p_fixed_bias p)
    (Noise (clamp_acc (n_acc (p_noise p))) (clamp_accbias (n_accbias (p_noise p)))
           (clamp_gyr (n_gyr (p_noise p))) (clamp_gyrbias (n_gyrbias (p_noise p)))).

(** A request has some of the parameters. *)
Record core_request := CoreRequest
  { a_fixed_bias : option bool; a_acc : option R; a_accbias : option R; a_gyr : option R; a_gyrbias : option R }.
Definition default {A} (x : A) (o : option A) : A := match o with Some y => y | None => x end.
Definition merge_core (p : core_params) (a : core_request) : core_params :=
  CoreParams (default (p_fixed_bias p) (a_fixed_bias a))
    (Noise (default (n_acc (p_noise p)) (a_acc a)) (default (n_accbias (p_noise p)) (a_accbias a))
           (default (n_gyr (p_noise p)) (a_gyr a)) (default (n_gyrbias (p_noise p)) (a_gyrbias a))).

(** [config_] after the start with the parameters of the parameter server ([Config] copies all) and
    after a number of requests *)
Definition core_start (p : core_params) : core_params := clamp_core p.
Definition core_serve (p : core_params) (a : core_request) : core_params := clamp_core (merge_core p a).
Definition core_session (p : core_params) (l : list core_request) : core_params :=
  fold_left core_serve l (core_start p).
