(* IEEE binary64 arithmetic as used by the C++ code (round to nearest even),
   by the executable reference implementation of Coq's standard library. *)
From Coq Require Import Floats.SpecFloat.
From Verif Require Import Base.

(* double: the type of durations and rates, e.g. mkvmuxer.h:824 *)
Definition f64 : Type := spec_float.

(* static_cast<double> of an integer, and the arithmetic of doubles: mkvmuxer.cc:3252-3268 *)
Definition f64_of_Z (v : Z) : f64 := binary_normalize 53 1024 v 0 false.
Definition f64_mul (a b : f64) : f64 := SFmul 53 1024 a b.
Definition f64_div (a b : f64) : f64 := SFdiv 53 1024 a b.
Definition f64_add (a b : f64) : f64 := SFadd 53 1024 a b.

(* static_cast of a double to an integer, mkvparser.cc:4064-4065: truncation towards zero;
   None for infinities and NaN *)
Definition f64_trunc (a : f64) : option Z :=
  match a with
  | S754_zero _ => Some 0
  | S754_finite s m e =>
      let v := if 0 <=? e then Zpos m * 2 ^ e else Zpos m / 2 ^ (- e) in
      Some (if s then - v else v)
  | _ => None
  end.

(* conversion double -> int64_t: undefined when the value does not fit *)
Definition f64_to_s64 (a : f64) : outcome Z :=
  match f64_trunc a with
  | Some v => if (-9223372036854775808 <=? v) && (v <=? 9223372036854775807) then Val v else UB
  | None => UB
  end.
