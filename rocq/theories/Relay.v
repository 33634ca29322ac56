(** The relay node, msf_distort/src/msf_distort.cc.  Definitions only.

    A message has a kind, which fixes the topic it arrives on and the topic it leaves on, and a
    content of any type, which is passed on unread.  Queues are taken never to overflow
    (20 in, 100 out). *)

From Coq Require Import List Bool.
Import ListNotations.

Set Implicit Arguments.

(** The five message types, lines 57-85; one input and one output topic each *)
Inductive msg_kind := KPoseCov | KTransform | KPose | KNavSat | KPoint.

(** MSF_DistortConfig, msf_distort/cfg/MSF_Distort.cfg lines 46-47 *)
Record switches := Switches { publish_pose : bool; publish_position : bool }.
(** the defaults of the same lines *)
Definition default_switches : switches := Switches true true.

Section Relay.
Variable content : Type.

(** A call of [config], lines 53-55, or of the [MeasurementCallback] of a kind *)
Inductive event := Config (c : switches) | Hear (k : msg_kind) (m : content).

(** lines 57-85 *)
Definition callback (c : switches) (k : msg_kind) (m : content) : list (msg_kind * content) :=
  match k with
  | KPoseCov => if publish_pose c then [(KPoseCov, m)] else []
  | KTransform => if publish_pose c then [(KTransform, m)] else []
  | KPose => if publish_pose c then [(KPose, m)] else []
  | KNavSat => if publish_position c then [(KNavSat, m)] else []
  | KPoint => if publish_position c then [(KPoint, m)] else []
  end.

Definition relay_step (s : switches * list (msg_kind * content)) (e : event) :=
  match e with
  | Config c => (c, snd s)
  | Hear k m => (fst s, snd s ++ callback (fst s) k m)
  end.
Definition relay (s : switches * list (msg_kind * content)) (es : list event) := fold_left relay_step es s.

(** main, lines 89-118: [setCallback] calls [config] with the parameters found at the start
    before anything is subscribed; what is published, in order *)
Definition published (start : switches) (es : list event) : list (msg_kind * content) :=
  snd (relay (relay_step (default_switches, []) (Config start)) es).
End Relay.
