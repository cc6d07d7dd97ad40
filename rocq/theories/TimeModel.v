(** Model of the time conversions (src/posix/time.cpp, src/windows/time.cpp and the POSIX part of
    last_write_time_impl in src/fs_ops.cpp) and of the overflow checking product in
    space_impl.

    Durations are [std::chrono] durations with a signed 64 bit representation: numbers in
    [Z] with an explicit range check at every operation. [system_clock] counts
    nanoseconds on POSIX (libstdc++, libc++ differs in the period only) and 100 ns ticks on MSVC; both
    appear below as a parameter where it matters. *)
From Coq Require Import Bool ZArith List.
From Verif Require Import PathModel.
Local Open Scope Z_scope.

(** Range of int64_t, the representation of every duration involved. *)
Definition i64_min : Z := - 2 ^ 63.
(** The range of the durations of src/posix/time.cpp:30-73 and src/windows/time.cpp:19-52. *)
Definition i64_max : Z := 2 ^ 63 - 1.
(** The range of the durations of src/posix/time.cpp:30-73 and src/windows/time.cpp:19-52. *)
Definition in_i64 (z : Z) : bool := (i64_min <=? z) && (z <=? i64_max).

(** The C++ standard leaves signed overflow undefined ([Strict]); compilers commonly produce the
    wrapped result ([Wrapping]). Not in the repository: the meaning of C++ signed arithmetic. *)
(** Arithmetic of src/posix/time.cpp:30-73 and src/windows/time.cpp:19-52. *)
Inductive signed_mode := Strict | Wrapping.

(** Arithmetic of src/posix/time.cpp:30-73 and src/windows/time.cpp:19-52. *)
Definition wrap64 (z : Z) : Z := (z + 2 ^ 63) mod 2 ^ 64 - 2 ^ 63.

(** The result of a signed 64 bit operation whose mathematical result is [z]. *)
Definition sint (m : signed_mode) (z : Z) : out Z :=
  if in_i64 z then Ok z else match m with Strict => UB | Wrapping => Ok (wrap64 z) end.

(** struct timespec: time_t tv_sec, long tv_nsec, both 64 bit. src/fs_portability.h:149-151 *)
Record timespec := TimeSpec { tv_sec : Z; tv_nsec : Z }.

(** std::chrono::nanoseconds against seconds, src/posix/time.cpp:30-73. *)
Definition ns_per_s : Z := 1000000000.

Section Mode.
Variable m : signed_mode.

(** src/posix/time.cpp:30-40 FileTimeIsRepresentable *)
Definition FileTimeIsRepresentable (t : timespec) : out bool :=
  if 0 <=? tv_sec t then Ok (tv_sec t <=? i64_max)
  else
    do b <- sint m (i64_min - 1) ;;
    if tv_sec t =? b then Ok (i64_min <=? tv_nsec t)
    else Ok (i64_min <=? tv_sec t).

(** Conversion of a duration in seconds to nanoseconds (std::chrono, ratio 10^9). *)
Definition to_ns (s : Z) : out Z := sint m (s * ns_per_s).

(** src/posix/time.cpp:44-62 FileTimeTypeFromPosixTimeSpec, with the period of
    [system_clock] a nanosecond. The result counts nanoseconds since the epoch. *)
Definition FileTimeTypeFromPosixTimeSpec (t : timespec) : out Z :=
  if (0 <=? tv_sec t) || (tv_nsec t =? 0) then
    do s <- to_ns (tv_sec t) ;; sint m (s + tv_nsec t)
  else
    do one <- to_ns 1 ;;
    do adj <- sint m (one - tv_nsec t) ;;
    do s1 <- sint m (tv_sec t + 1) ;;
    do s <- to_ns s1 ;;
    sint m (s - adj).

(** src/posix/time.cpp:64-73 ExtractLastWriteTime: [Ok None] is the report of
    value_too_large (its delivery is in OpsModel.v). *)
Definition extract_last_write_time (t : timespec) : out (option Z) :=
  do r <- FileTimeIsRepresentable t ;;
  if r then do v <- FileTimeTypeFromPosixTimeSpec t ;; Ok (Some v) else Ok None.

(** src/fs_ops.cpp:1104-1125, from a file_time_type to the timespec given to utimensat;
    [Ok None] is the report of invalid_argument. duration_cast truncates toward zero. *)
Definition timespec_of_time (d : Z) : out (option timespec) :=
  let s := Z.quot d ns_per_s in
  do s_ns <- to_ns s ;;
  do ns <- sint m (d - s_ns) ;;
  do sn <- (if ns <? 0
            then (do s' <- sint m (s - 1) ;; do ns' <- sint m (ns + ns_per_s) ;; Ok (s', ns'))
            else Ok (s, ns)) ;;
  let '(s2, ns2) := sn in
  if s2 <? 0 then Ok None else Ok (Some (TimeSpec s2 ns2)).

(** Windows: ticks of system_clock per second (MSVC 10^7, MinGW 10^9). *)
Variable tps : Z.

(** src/windows/time.cpp:19-34 FileTimeTypeFromWindowsFileTime. [q] is the 64 bit FILETIME. The
    quotient minus 11644473600 is computed in unsigned 64 bit and converted to the signed rep. *)
Definition FileTimeTypeFromWindowsFileTime (q : Z) : out Z :=
  let u := (q / 10000000 - 11644473600) mod 2 ^ 64 in
  sint m (wrap64 u * tps).

(** src/windows/time.cpp:36-52 FileTimeTypeToWindowsFileTime; [Ok None] is invalid_argument.
    duration_cast<nanoseconds> multiplies by 10^9/tps. dwLowDateTime and dwHighDateTime are the
    halves of the 64 bit value [ll], returned here as one number. *)
Definition FileTimeTypeToWindowsFileTime (d : Z) : out (option Z) :=
  if d <? 0 then Ok None
  else
    do ns <- sint m (d * (ns_per_s / tps)) ;;
    do ll <- sint m (Z.quot ns 100 + 116444736000000000) ;;
    let low := (ll mod 2 ^ 64) mod 2 ^ 32 in
    let high := ((ll mod 2 ^ 64) / 2 ^ 32) mod 2 ^ 32 in
    Ok (Some (high * 2 ^ 32 + low)).

End Mode.

(** Maximum of uintmax_t, static_cast<uintmax_t>(-1). *)
Definition u64_max : Z := 2 ^ 64 - 1.

(** src/fs_ops.cpp:1417-1422, the do_mult lambda: 64 bit unsigned product with
    overflow check. *)
Definition do_mult (other frsize : Z) : Z :=
  let o := (other * frsize) mod 2 ^ 64 in
  if (other =? 0) || negb (o / other =? frsize) then u64_max else o.
