(** Words for C160: a recording with a wrong clock. *)
From Verif Require Import Base TrajModel TrajSpec MotionSpec.

(** At the time shown by its clock the recording is where the motion is [d] seconds later. *)
Definition clock_off {Q} (d : R) (f : R -> V3) (t : traj Q) : Prop := records (fun x => f (x + d)) t.

(** Straight motion through [p] with velocity [w]. *)
Definition uniform (p w : V3) (t : R) : V3 := vadd p (vscale t w).
