(** * Str: model of the string functions of /repo/src/spot.c *)
From Coq Require Import ZArith Bool String Ascii List.
From Verif Require Import Num Spot.
Import ListNotations.
Open Scope Z_scope.

(** Bytes of a C string literal, without the final NUL. *)
Definition bytes_of (s : string) : list Z :=
  map (fun c => Z.of_nat (nat_of_ascii c)) (list_ascii_of_string s).

(** spot.c:177-179: copy loop; [srcz] is the source with its terminating NUL. The source ends with a
    NUL so [fuel = length srcz] iterations are enough. *)
Fixpoint copy_loop (fuel : nat) (srcz dst : list Z) (size i : Z) : res (list Z * Z) :=
  match fuel with
  | O => Undef Diverge
  | S fuel' =>
      if i <? size then
        c <- rd srcz i ;;
        if negb (c =? 0) then
          dst <- wr dst i c ;;
          copy_loop fuel' srcz dst size (i + 1)
        else Ret (dst, i)
      else Ret (dst, i)
  end.

(** spot.c:174-186. [dst = None] is a null pointer; otherwise the caller's object (whose real length is
    [length dst]). [src] is the source without its NUL. *)
Definition c_strncpy (dst : option (list Z)) (src : list Z) (size : Z) : res (option (list Z)) :=
  match dst with
  | None => Ret None
  | Some dst =>
      '(dst, i) <- copy_loop (S (length src)) (src ++ [0]) dst size 0 ;;
      dst <- for_from (Z.to_nat (size - i)) i (fun i dst => wr dst i 0) dst ;;
      dst <- wr dst (u64 (size - 1)) 0 ;;
      Ret (Some dst)
  end.

(** spot.c:193-200 *)
Definition errors : list string :=
  [ "Memory allocation failed";
    "The level parameter is out of bounds (it must be between 0 and 1, but close to 1)";
    "The q parameter must between 0 and 1-level";
    "The excess threshold has not been initialized";
    "The anomaly threshold has not been initialized";
    "The input data is NaN" ]%string.

(** spot.c:202-207 *)
Definition libspot_error (err : Z) (buffer : option (list Z)) (size : Z) : res (option (list Z)) :=
  if (ERR_MEMORY_ALLOCATION_FAILED <=? err) && (err <? ERR_DATA_IS_NAN) then
    msg <- rd errors (err - ERR_MEMORY_ALLOCATION_FAILED) ;;
    c_strncpy buffer (bytes_of msg) size
  else Ret buffer.

(** spot.c:21-22: VERSION comes from the build (Makefile:11 "2.0b2"), LICENSE is the default of spot.c:17 *)
Definition version : string := "2.0b2"%string.
Definition license : string := "LGPL-3.0-or-later"%string.

(** spot.c:209-211 *)
Definition libspot_version (buffer : option (list Z)) (size : Z) : res (option (list Z)) :=
  c_strncpy buffer (bytes_of version) size.
(** spot.c:213-215 *)
Definition libspot_license (buffer : option (list Z)) (size : Z) : res (option (list Z)) :=
  c_strncpy buffer (bytes_of license) size.
