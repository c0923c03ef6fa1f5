(** * Keyframe animations of the launch simulator: launch-simulator/src/keyframe.rs.
    f32 is modelled by exact rationals; a division by zero is [RNan].  Keyframes are numbers ([impl KeyFrame for f32], keyframe.rs:8-12);
    [Translation3DKeyFrame] interpolates its translation in the same way, per component, and its orientation by slerp, which is not modelled. *)
From Coq Require Import QArith Qabs Lqa.
From Verif Require Import Base.
Local Open Scope Q_scope.

(** keyframe.rs:38-41 *)
Record animation := Anim { durations : list Q; keyframes : list Q }.
(** keyframe.rs:56-60 *)
Definition add_keyframe (b : animation) (k d : Q) : animation := Anim (durations b ++ [d]) (keyframes b ++ [k]).
(** keyframe.rs:61-66 *)
Definition sum (l : list Q) : Q := fold_right Qplus 0 l.
Definition add_keyframe_absolute (b : animation) (k t : Q) : animation := Anim (durations b ++ [t - sum (durations b)]) (keyframes b ++ [k]).
(** keyframe.rs:68-74 *)
Definition finish (b : animation) (k : Q) : animation := Anim (durations b) (keyframes b ++ [k]).
Definition builder_new : animation := Anim [] [].

(** keyframe.rs:9-11 *)
Definition lerp (a b r : Q) : Q := a + (b - a) * r.

Inductive outcome := RValue (q : Q) | RNone | RNan | RPanic.
(** keyframe.rs:94-112, the loop from [keyframe_index] on: [ds] are the durations from that index on, [ks] the keyframes.
    The index is checked against the durations before the loop only by indexing: no durations at all is a panic. *)
Fixpoint seek (time : Q) (ds ks : list Q) : outcome :=
  match ds with
  | [] => RNone
  | d :: ds' =>
      if Qlt_le_dec d time then seek (time - d) ds' (tl ks)
      else match ks with
           | a :: b :: _ => if Qeq_dec d 0 then RNan else RValue (lerp a b (time / d))
           | _ => RPanic
           end
  end.
Record player := Pl { anim : animation; time : Q }.
(** keyframe.rs:86-92 *)
Definition player_new (a : animation) : player := Pl a 0.
Definition update (p : player) (delta : Q) : player * outcome :=
  let t := time p + delta in
  (Pl (anim p) t, match durations (anim p) with [] => RPanic | _ => seek t (durations (anim p)) (keyframes (anim p)) end).
(** several updates; what the last one returned *)
Fixpoint updates (p : player) (ds : list Q) (o : outcome) : player * outcome :=
  match ds with [] => (p, o) | d :: t => let (p', o') := update p d in updates p' t o' end.
