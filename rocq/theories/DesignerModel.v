(** * Model of the filter design code (hiir/PolyphaseIir2Designer.cpp, hiir/fnc.hpp)

    Simplifications: double is modelled by the real numbers, and the functions
    of <cmath> by the exact ones (rounding and overflow are not considered); int
    and long by the integers.  The constant hiir::PI keeps its value in double.
    Arrays are lists.  A failing assert or reading an array beyond its end is
    [DBad], the square root of a negative number or a division by zero is [DNaN],
    the limit of iterations of the model is [DFuel]. *)
From Coq Require Import ZArith Reals List Lia Lra Bool.
From Flocq Require Import Core.
Import ListNotations.
Open Scope R_scope.

Inductive dres (X : Type) := DOk (x : X) | DBad | DNaN | DFuel.
Arguments DOk {_}. Arguments DBad {_}. Arguments DNaN {_}. Arguments DFuel {_}.
Definition dbind {X Y} (c : dres X) (k : X -> dres Y) : dres Y :=
  match c with DOk x => k x | DBad => DBad | DNaN => DNaN | DFuel => DFuel end.
(** assert (P) *)
Definition dassert {P X} (d : {P} + {~ P}) (k : dres X) : dres X := if d then k else DBad.
Notation "'let?' x ':=' c 'in' k" := (dbind c (fun x => k)) (at level 200, x pattern, right associativity).
Notation "'assert!' d ; k" := (dassert d k) (at level 200, right associativity).

Lemma Rneq_dec (x y : R) : {x <> y} + {~ x <> y}.
Proof. destruct (Req_EM_T x y); [right | left]; tauto. Qed.
Definition ge_dec (x y : R) : {x >= y} + {~ x >= y} := Rge_dec x y.
Definition le_dec (x y : R) : {x <= y} + {~ x <= y} := Rle_dec x y.
Definition gt_dec (x y : R) : {x > y} + {~ x > y} := Rgt_dec x y.
Definition lt_dec (x y : R) : {x < y} + {~ x < y} := Rlt_dec x y.

(** a number that must not be negative, or not be 0 *)
Definition need {P X} (d : {P} + {~ P}) (k : dres X) : dres X := if d then k else DNaN.
Notation "'need!' d ; k" := (need d k) (at level 200, right associativity).

(** const double PI, def.h:76: the double next to the literal *)
Definition hiir_PI : R := 884279719003555 / 2 ^ 48.

(** ceil_int, fnc.hpp:49-52 *)
Definition ceil_int (x : R) : Z := Zceil x.

(** ipowp, fnc.hpp:56-73, for any number type *)
Section Ipowp.
Context {T : Type} (one : T) (mul : T -> T -> T).
Fixpoint ipowp_loop (fuel : nat) (x z : T) (n : Z) : dres T :=
  if Z.eqb n 0 then DOk z else
  match fuel with
  | O => DFuel
  | S f =>
      let z := if Z.eqb (Z.land n 1) 0 then z else mul z x in
      let n := Z.shiftr n 1 in
      let x := mul x x in
      ipowp_loop f x z n
  end.
(** a long has 64 bits *)
Definition ipowp (x : T) (n : Z) : dres T := assert! Z_ge_dec n 0 ; ipowp_loop 64 x one n.
End Ipowp.
Definition ipow (x : R) (n : Z) : dres R := ipowp 1 Rmult x n.

(** compute_transition_param, PolyphaseIir2Designer.cpp:464-479 *)
Definition compute_transition_param (transition : R) : dres (R * R) :=
  assert! gt_dec transition 0 ; assert! lt_dec transition 0.5 ;
  let k := tan ((1 - transition * 2) * hiir_PI / 4) in
  let k := k * k in
  assert! lt_dec k 1 ; assert! gt_dec k 0 ;
  let kksqrt := Rpower (1 - k * k) 0.25 in
  let e := 0.5 * (1 - kksqrt) / (1 + kksqrt) in
  let e2 := e * e in
  let e4 := e2 * e2 in
  let q := e * (1 + e4 * (2 + e4 * (15 + 150 * e4))) in
  assert! gt_dec q 0 ;
  DOk (k, q).

(** compute_order, lines 483-501 *)
Definition compute_order (attenuation q : R) : dres Z :=
  assert! gt_dec attenuation 0 ; assert! gt_dec q 0 ;
  let attn_p2 := Rpower 10 (- attenuation / 10) in
  let a := attn_p2 / (1 - attn_p2) in
  let order := ceil_int (ln (a * a / 16) / ln q) in
  let order := if Z.eqb (Z.land order 1) 0 then (order + 1)%Z else order in
  let order := if Z.eqb order 1 then 3%Z else order in
  DOk order.

(** compute_atten, lines 505-518 *)
Definition log10 (x : R) : R := ln x / ln 10.
Definition compute_atten (q : R) (order : Z) : dres R :=
  assert! gt_dec q 0 ; assert! Z_gt_dec order 0 ; assert! Z.eq_dec (Z.land order 1) 1 ;
  let a := 4 * exp (IZR order * 0.5 * ln q) in
  assert! Rneq_dec a (-1) ;
  let attn_p2 := a / (1 + a) in
  let attenuation := -10 * log10 attn_p2 in
  assert! gt_dec attenuation 0 ;
  DOk attenuation.

(** compute_nbr_coefs_from_proto, lines 68-81; C++ division of int rounds towards 0 *)
Definition compute_nbr_coefs_from_proto (attenuation transition : R) : dres Z :=
  assert! gt_dec attenuation 0 ; assert! gt_dec transition 0 ; assert! lt_dec transition 0.5 ;
  let? (k, q) := compute_transition_param transition in
  let? order := compute_order attenuation q in
  DOk (Z.quot (order - 1) 2).

(** compute_atten_from_order_tbw, lines 100-113 *)
Definition compute_atten_from_order_tbw (nbr_coefs : Z) (transition : R) : dres R :=
  assert! Z_gt_dec nbr_coefs 0 ; assert! gt_dec transition 0 ; assert! lt_dec transition 0.5 ;
  let? (k, q) := compute_transition_param transition in
  compute_atten q (nbr_coefs * 2 + 1).

Section Loops.
(** number of iterations allowed in the do-while loops *)
Context (fuel : nat).

(** compute_acc_num, lines 541-562 *)
Fixpoint acc_num_loop (fuel : nat) (q : R) (order c i j : Z) (acc : R) : dres R :=
  match fuel with
  | O => DFuel
  | S f =>
      let? p := ipow q (i * (i + 1)) in
      let q_ii1 := p * (sin (IZR ((i * 2 + 1) * c) * hiir_PI / IZR order) * IZR j) in
      let acc := acc + q_ii1 in
      if gt_dec (Rabs q_ii1) (/ 10 ^ 100) then acc_num_loop f q order c (i + 1) (- j) acc else DOk acc
  end.
Definition compute_acc_num (q : R) (order c : Z) : dres R :=
  assert! Z_ge_dec c 1 ; assert! Z_lt_dec c (order * 2) ; acc_num_loop fuel q order c 0 1 0.

(** compute_acc_den, lines 566-587 *)
Fixpoint acc_den_loop (fuel : nat) (q : R) (order c i j : Z) (acc : R) : dres R :=
  match fuel with
  | O => DFuel
  | S f =>
      let? p := ipow q (i * i) in
      let q_i2 := p * (cos (IZR (i * 2 * c) * hiir_PI / IZR order) * IZR j) in
      let acc := acc + q_i2 in
      if gt_dec (Rabs q_i2) (/ 10 ^ 100) then acc_den_loop f q order c (i + 1) (- j) acc else DOk acc
  end.
Definition compute_acc_den (q : R) (order c : Z) : dres R :=
  assert! Z_ge_dec c 1 ; assert! Z_lt_dec c (order * 2) ; acc_den_loop fuel q order c 1 (-1) 0.

(** compute_coef, lines 522-537 *)
Definition compute_coef (index : Z) (k q : R) (order : Z) : dres R :=
  assert! Z_ge_dec index 0 ; assert! Z_lt_dec (index * 2) order ;
  let c := (index + 1)%Z in
  let? n := compute_acc_num q order c in
  let num := n * Rpower q 0.25 in
  let? d := compute_acc_den q order c in
  let den := d + 0.5 in
  need! Rneq_dec den 0 ;
  let ww := num / den in
  let wwsq := ww * ww in
  need! ge_dec ((1 - wwsq * k) * (1 - wwsq / k)) 0 ;
  let x := sqrt ((1 - wwsq * k) * (1 - wwsq / k)) / (1 + wwsq) in
  DOk ((1 - x) / (1 + x)).

(** for (index = i; n times; ++index) coef_arr[index] = compute_coef (index, k, q, order) *)
Fixpoint coef_loop (n : nat) (index : Z) (k q : R) (order : Z) : dres (list R) :=
  match n with
  | O => DOk []
  | S m =>
      let? c := compute_coef index k q order in
      let? r := coef_loop m (index + 1) k q order in
      DOk (c :: r)
  end.

(** compute_coefs, lines 136-158: the coefficients and the return value *)
Definition compute_coefs (attenuation transition : R) : dres (list R * Z) :=
  assert! gt_dec attenuation 0 ; assert! gt_dec transition 0 ; assert! lt_dec transition 0.5 ;
  let? (k, q) := compute_transition_param transition in
  let? order := compute_order attenuation q in
  let nbr_coefs := Z.quot (order - 1) 2 in
  let? l := coef_loop (Z.to_nat nbr_coefs) 0 k q order in
  DOk (l, nbr_coefs).

(** compute_coefs_spec_order_tbw, lines 179-195 *)
Definition compute_coefs_spec_order_tbw (nbr_coefs : Z) (transition : R) : dres (list R) :=
  assert! Z_gt_dec nbr_coefs 0 ; assert! gt_dec transition 0 ; assert! lt_dec transition 0.5 ;
  let? (k, q) := compute_transition_param transition in
  coef_loop (Z.to_nat nbr_coefs) 0 k q (nbr_coefs * 2 + 1).
End Loops.

(** atan2 (y, x) of <cmath> *)
Definition atan2 (y x : R) : R :=
  if gt_dec x 0 then atan (y / x)
  else if lt_dec x 0 then (if ge_dec y 0 then atan (y / x) + PI else atan (y / x) - PI)
  else if gt_dec y 0 then PI / 2 else if lt_dec y 0 then - (PI / 2) else 0.

(** compute_phase_delay, lines 358-379 *)
Definition compute_phase_delay (a f_fs : R) : dres R :=
  assert! ge_dec a 0 ; assert! le_dec a 1 ; assert! ge_dec f_fs 0 ; assert! lt_dec f_fs 0.5 ;
  let w := 2 * hiir_PI * f_fs in
  let c := cos w in
  let s := sin w in
  let x := a + c + a * (c * (a + c) + s * s) in
  let y := a * a * s - s in
  let ph := atan2 y x in
  let ph := if lt_dec ph 0 then ph + 2 * hiir_PI else ph in
  need! Rneq_dec w 0 ;
  DOk (ph / w).

(** compute_group_delay for one unit, lines 402-415 *)
Definition compute_group_delay1 (a f_fs : R) (ph_flag : bool) : dres R :=
  assert! ge_dec a 0 ; assert! le_dec a 1 ; assert! ge_dec f_fs 0 ; assert! lt_dec f_fs 0.5 ;
  let w := 2 * hiir_PI * f_fs in
  let a2 := a * a in
  let sig := if ph_flag then -2 else 2 in
  DOk (2 * (1 - a2) / (a2 + sig * a * cos (2 * w) + 1)).

(** compute_group_delay for a filter, lines 438-453 *)
Fixpoint gdly_loop (fuel : nat) (coef_arr : list R) (nbr_coefs k : Z) (f_fs : R) (ph_flag : bool) (dly_total : R) : dres R :=
  if Z_lt_dec k nbr_coefs then
    match fuel with
    | O => DFuel
    | S f =>
        match nth_error coef_arr (Z.to_nat k) with
        | None => DBad
        | Some a =>
            let? dly := compute_group_delay1 a f_fs ph_flag in
            gdly_loop f coef_arr nbr_coefs (k + 2) f_fs ph_flag (dly_total + dly)
        end
    end
  else DOk dly_total.
Definition compute_group_delay (coef_arr : list R) (nbr_coefs : Z) (f_fs : R) (ph_flag : bool) : dres R :=
  assert! Z_gt_dec nbr_coefs 0 ; assert! ge_dec f_fs 0 ; assert! lt_dec f_fs 0.5 ;
  gdly_loop (Z.to_nat nbr_coefs) coef_arr nbr_coefs 0 f_fs ph_flag 0.

(** ** compute_coefs_spec_order_gdly, lines 242-337 *)
Inductive rescode := ResCode_FAIL_CONV | ResCode_FAIL_ATTEN | ResCode_FAIL_GD_TBW | ResCode_OK.

Section Gdly.
Context (fuel : nat) (nbr_coefs : Z) (group_delay f_rel prec : R).

(** the loop of lines 282-306.  State: ub_tbw, lb_tbw, lb_gdly, nbr_it; the
    result: rs_tbw, rs_attn, coef_arr, rs_gdly, nbr_it, conv_flag *)
Fixpoint bisect (it : nat) (ub_tbw lb_tbw lb_gdly : R) (nbr_it : Z) : dres (R * R * list R * R * Z * bool) :=
  match it with
  | O => DFuel
  | S i =>
      let rs_tbw := (ub_tbw + lb_tbw) * 0.5 in
      let? rs_attn := compute_atten_from_order_tbw nbr_coefs rs_tbw in
      let? coef_arr := compute_coefs_spec_order_tbw fuel nbr_coefs rs_tbw in
      let? rs_gdly := compute_group_delay coef_arr nbr_coefs f_rel false in
      let lower := lt_dec ((group_delay - lb_gdly) * (group_delay - rs_gdly)) 0 in
      let ub_tbw := if lower then rs_tbw else ub_tbw in
      let lb_tbw := if lower then lb_tbw else rs_tbw in
      let lb_gdly := if lower then lb_gdly else rs_gdly in
      let nbr_it := (nbr_it + 1)%Z in
      let conv_flag := if gt_dec (Rabs (rs_gdly - group_delay)) prec then true else false in
      if conv_flag && Z.ltb nbr_it 1000 then bisect i ub_tbw lb_tbw lb_gdly nbr_it
      else DOk (rs_tbw, rs_attn, coef_arr, rs_gdly, nbr_it, conv_flag)
  end.

(** the results: the return code, and (if the search was done) the coefficients, the
    attenuation and the transition bandwidth *)
Definition compute_coefs_spec_order_gdly (atten_lb atten_ub trans_lb trans_ub : R) : dres (rescode * option (list R * R * R)) :=
  assert! Z_gt_dec nbr_coefs 0 ; assert! Z_le_dec nbr_coefs 256 ;
  assert! gt_dec group_delay 0 ; assert! ge_dec f_rel 0 ; assert! lt_dec f_rel 1 ; assert! gt_dec prec 0 ;
  assert! gt_dec atten_lb 0 ; assert! lt_dec atten_lb atten_ub ;
  assert! gt_dec trans_lb 0 ; assert! lt_dec trans_lb trans_ub ; assert! lt_dec trans_ub 0.5 ;
  let? ub_coef_arr := compute_coefs_spec_order_tbw fuel nbr_coefs trans_ub in
  let? lb_coef_arr := compute_coefs_spec_order_tbw fuel nbr_coefs trans_lb in
  let? ub_gdly := compute_group_delay ub_coef_arr nbr_coefs f_rel false in
  let? lb_gdly := compute_group_delay lb_coef_arr nbr_coefs f_rel false in
  if le_dec ((ub_gdly - group_delay) * (group_delay - lb_gdly)) 0 then DOk (ResCode_FAIL_GD_TBW, None)
  else
    let? (rs_tbw, rs_attn, coef_arr, rs_gdly, nbr_it, conv_flag) := bisect 1000 trans_ub trans_lb lb_gdly 0 in
    let ret_val :=
      if Z.leb 1000 nbr_it && negb conv_flag then ResCode_FAIL_CONV
      else if lt_dec rs_attn atten_lb then ResCode_FAIL_ATTEN
      else if gt_dec rs_attn atten_ub then ResCode_FAIL_ATTEN
      else ResCode_OK in
    DOk (ret_val, Some (coef_arr, rs_attn, rs_tbw)).
End Gdly.

(** ** filter-design/mkiir.cc, the program that printed the tables of pandaresampler.cc *)

(** mk_group_delay, mkiir.cc:8-14 *)
Definition mk_group_delay (stage : Z) (coeffs : list R) (n_coeffs : Z) : dres R :=
  compute_group_delay coeffs n_coeffs (1000 / (44100 * IZR stage)) false.

(** one turn of the two loops of main, mkiir.cc:58-80, up to the text that is printed:
    the number of coefficients, the coefficients and the group delay *)
Definition mkiir (fuel : nat) (bits stage : Z) : dres (Z * list R * R) :=
  let passband_end := 18000 in
  let rate := IZR (Z.quot (44100 * stage) 2) in
  let tbw := (rate / 2 - passband_end) / rate in
  let? n_coeffs := compute_nbr_coefs_from_proto (IZR (bits * 6)) tbw in
  let? coeffs := compute_coefs_spec_order_tbw fuel n_coeffs tbw in
  let? gdelay := mk_group_delay stage coeffs n_coeffs in
  DOk (n_coeffs, coeffs, gdelay).
