(* IMU buffers: serpent/src/utils/utilities.cpp (UT), serpent/src/front_end/frontend.cpp (FE).
   A measurement is its time stamp in nanoseconds (ros::Time) and an opaque payload standing for
   acceleration and angular velocity. Durations are kept in nanoseconds: toSec() is left out. *)
From Verif Require Import Base.

Notation imu := (Z * Z)%type.               (* stamp, payload *)
Notation step := (Z * Z)%type.              (* payload, duration given to integrateMeasurement *)

(* UT 15-19 *)
Fixpoint delete_old (t : Z) (b : list imu) : list imu :=
  match b with
  | [] => []
  | (s, v) :: b' => if s <? t then delete_old t b' else b
  end.

(* UT 36-52: the loop of integrate_imu, from integration_time [now] *)
Fixpoint integrate_loop (start stop now : Z) (b : list imu) : list step :=
  match b with
  | [] => []
  | (s, v) :: b' =>
      if stop <? s then [] else                                     (* UT 39-41 *)
      match b' with
      | [] => [(v, stop - now)]                                     (* UT 44, 47 *)
      | (s', _) :: _ =>
          if start <? s' then (v, Z.min s' stop - now) :: integrate_loop start stop (Z.min s' stop) b'
          else integrate_loop start stop now b'
      end
  end.

(* gtsam::PreintegratedCombinedMeasurements::integrateMeasurement throws when dt <= 0 *)
Definition preintegrate (l : list step) : res (list step) := if forallb (fun x : step => 0 <? snd x) l then Ok l else Throw.

(* UT 21-53: the calls of integrateMeasurement made on the integrator *)
Definition integrate_imu (b : list imu) (start stop : Z) : res (list step) :=
  if start =? stop then Ok [] else                                  (* UT 24-26 *)
  match b with
  | [] | [_] => Throw                                               (* UT 29-30 *)
  | (s, _) :: _ => if start <? s then Throw                         (* UT 31-34 *)
                   else preintegrate (integrate_loop start stop start b)
  end.

(* FE 392-399: measurements selected for the back end. std::next(it) of the last element is
   dereferenced when its stamp is in range: undefined *)
Fixpoint select_imu (prev new : Z) (b : list imu) : res (list imu) :=
  match b with
  | [] => Ok []
  | (s, v) :: b' =>
      if s <? new then
        if prev <? s then rbind (select_imu prev new b') (fun l => Ok ((s, v) :: l))
        else match b' with
             | [] => UB
             | (s', _) :: _ => rbind (select_imu prev new b') (fun l => Ok (if prev <? s' then (s, v) :: l else l))
             end
      else select_imu prev new b'
  end.

(* FE 257-266: the pair of neighbours interpolated_imu uses *)
Fixpoint first_at_least (t : Z) (prev : imu) (b : list imu) : option (imu * imu) :=
  match b with
  | [] => None                                                       (* at(i) out of range: throws *)
  | x :: b' => if fst x <? t then first_at_least t x b' else Some (prev, x)
  end.
Definition imu_neighbours (t : Z) (b : list imu) : res (imu * imu) :=
  match b with
  | x :: (_ :: _) as b' =>
      if (t <? fst x) || (fst (last b' x) <? t) then Throw
      else match first_at_least t x b' with Some p => Ok p | None => Throw end
  | _ => Throw
  end.
