(* Times and pressures in floating point: rounding is not left out here.
   serpent/src/front_end/lidar/pointcloud_formatter.cpp (PF), pointcloud_tools/include/pointcloud_tools/impl/pclpointcloud2_utilities.hpp (PI),
   pointcloud_tools/src/pclpointcloud2_utilities.cpp (PU), serpent/src/front_end/frontend.cpp (FE), eigen_ros/src/imu.cpp (IM),
   serpent/include/serpent/utils/utilities-inl.hpp (UI), serpent/src/utils/utilities.cpp (UT).
   A float or double is the real number it stands for; an operation rounds the exact result to nearest, ties to even, with gradual underflow
   (Flocq's round with FLT_exp).  Overflow is left out: no value here reaches 2^63, float goes up to 2^128.  Times are nanoseconds (Z). *)
From Coq Require Import ZArith Reals List.
From Flocq Require Import Core.
Import ListNotations.
Open Scope R_scope.

(* binary32 and binary64 *)
Definition fl32 (x : R) : R := round radix2 (FLT_exp (-149) 24) ZnearestE x.
Definition fl64 (x : R) : R := round radix2 (FLT_exp (-1074) 53) ZnearestE x.

(* the literals 1.0e-9 and 1.0e-3 *)
Definition nano : R := fl64 (/ 1000000000).
Definition milli : R := fl64 (/ 1000).

(* cast_field_with_scale<FLOAT32>, PI 354-374, called at PF 42 and 44: the 32 bit integer is read as a double (exact), multiplied as doubles and
   stored as a float *)
Definition point_time (t : Z) : R := fl32 (fl64 (IZR t * nano)).
Definition point_range (r : Z) : R := fl32 (fl64 (IZR r * milli)).

(* ros::DurationBase::toSec: sec + 1e-9 * nsec with 0 <= nsec < 10^9 *)
Definition to_sec (ns : Z) : R := fl64 (IZR (ns / 1000000000) + fl64 (nano * IZR (ns mod 1000000000))).
(* ros::DurationBase::fromSec: sec = floor(d), nsec = boost::math::round((d - sec) * 1e9), half away from zero *)
Definition from_sec (d : R) : Z := (Zfloor d * 1000000000 + ZnearestA (fl64 (fl64 (d - IZR (Zfloor d)) * 1000000000)))%Z.

(* pct::max<float>, PI 587-599, of a cloud that has points; FE 448-449 (the float is widened to double, exact) *)
Definition last_time (first : Z) (others : list Z) : R := fold_left Rmax (map point_time others) (point_time first).
Definition sweep_duration (first : Z) (others : list Z) : Z := from_sec (last_time first others).

(* filter_max<float>, PI 381-409, called at PF 70; PF 22: nh.param<float> *)
Definition passes (max : R) (t : Z) : Prop := point_time t <= fl32 max.

(* PU 161: where in the sweep a point was taken; dt is sweep_duration.toSec(), FE 509 *)
Definition sweep_fraction (sweep : Z) (t : Z) : R := fl64 (point_time t / to_sec sweep).

(* IM 84, UI 15: where between two messages a time is; stamps with t1 <= t <= t2 and t1 < t2 *)
Definition fraction (t1 t2 t : Z) : R := fl64 (to_sec (t - t1) / to_sec (t2 - t1)).
(* IM 87-95: whose covariance the interpolated message carries (true: of the first) *)
Definition takes_first (f : R) : Prop := f <= / 2.
(* UI 16, for the pressure and its variance, UT 57-67 *)
Definition blend (f a b : R) : R := fl64 (fl64 (fl64 (1 - f) * a) + fl64 (f * b)).
