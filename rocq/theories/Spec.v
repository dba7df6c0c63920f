(** * What the resampler is supposed to compute

    Signals are finite lists of samples, taken to be zero before their start.
    Nothing here mentions memory, blocks, histories, chunks or vector lanes
    (except [vmac], which says in which order a vector unit adds up a window).
    The only things shared with the model of the code are the interface
    enumerations and the coefficient tables. *)
From Coq Require Import ZArith List.
From Verif Require Import Arith Tables ResamplerModel.
Import ListNotations.
Open Scope Z_scope.

(** ** FIR half-band filters *)
Section Fir.
Context {A : arith}.

(** sample k of a signal *)
Definition smp (x : list A) (k : Z) : A := if k <? 0 then f0 else nth (Z.to_nat k) x f0.

(** sum of w(i) t(i), i = 0..n-1, from left to right *)
Fixpoint mac (n : nat) (w t : Z -> A) : A :=
  match n with
  | O => f0
  | S k => fadd (mac k w t) (fmul (w (Z.of_nat k)) (t (Z.of_nat k)))
  end.

(** the signal f(0), ..., f(n-1) *)
Definition tab (n : Z) (f : Z -> A) : list A := map (fun i => f (Z.of_nat i)) (seq 0 (Z.to_nat n)).

Definition size (x : list A) : Z := Z.of_nat (length x).

(** 2x upsampling: y(2m) = sum_i t(i) x(m-N+1+i), y(2m+1) = x(m-N/2+1) *)
Definition fir_up_at (t x : list A) (j : Z) : A :=
  let N := size t in
  let m := j / 2 in
  if Z.even j then mac (length t) (fun i => smp x (m - N + 1 + i)) (smp t)
  else smp x (m - N / 2 + 1).
Definition fir_up2 (t x : list A) : list A := tab (2 * size x) (fir_up_at t x).

(** 2x downsampling: y(n) = sum_i t(i) x(2(n-N+1+i)) + 0.5 x(2(n-N/2)+1) *)
Definition fir_down_at (t x : list A) (n : Z) : A :=
  let N := size t in
  fadd (mac (length t) (fun i => smp x (2 * (n - N + 1 + i))) (smp t))
       (fmul fhalf (smp x (2 * (n - N / 2) + 1))).
Definition fir_down2 (t x : list A) : list A := tab (size x / 2) (fir_down_at t x).

(** The same sum computed by a four lane vector unit which looks at the window
    shifted by j: lane l adds the terms i = 4g + l - j for g = 0, 1, ... (taps
    outside 0..n-1 count as 0); the lanes are added at the end. *)
Definition tap0 (n : Z) (t : Z -> A) (i : Z) : A := if (0 <=? i) && (i <? n) then t i else f0.
Definition vterm (n : Z) (w t : Z -> A) (i : Z) : A := fmul (w i) (tap0 n t i).
Fixpoint vlane (n : Z) (w t : Z -> A) (s : Z) (g : nat) : A :=
  match g with
  | O => vterm n w t s
  | S k => fadd (vlane n w t s k) (vterm n w t (4 * Z.of_nat g + s))
  end.
Definition vmac (n : Z) (w t : Z -> A) (j : Z) : A :=
  let lane l := vlane n w t (l - j) (Z.to_nat ((n + 6) / 4 - 1)) in
  fadd (fadd (fadd (lane 0) (lane 1)) (lane 2)) (lane 3).

(** v is the sum of w(i) t(i), added up in an order the code may use *)
Definition sum_of (vec : bool) (n : Z) (w t : Z -> A) (v : A) : Prop :=
  v = mac (Z.to_nat n) w t \/ vec = true /\ exists j, 0 <= j <= 3 /\ v = vmac n w t j.

Definition fir_up_any (vec : bool) (t x y : list A) : Prop :=
  size y = 2 * size x /\
  forall m, 0 <= m < size x ->
    sum_of vec (size t) (fun i => smp x (m - size t + 1 + i)) (smp t) (smp y (2 * m)) /\
    smp y (2 * m + 1) = smp x (m - size t / 2 + 1).

Definition fir_down_any (vec : bool) (t x y : list A) : Prop :=
  size x = 2 * size y /\
  forall n, 0 <= n < size y -> exists v,
    sum_of vec (size t) (fun i => smp x (2 * (n - size t + 1 + i))) (smp t) v /\
    smp y n = fadd v (fmul fhalf (smp x (2 * (n - size t / 2) + 1))).
End Fir.

(** ** IIR half-band filters made of all-pass sections *)
Section Iir.
Context {A : arith}.

(** y(n) = (x(n) - y(n-1)) c + x(n-1), from a given last input and output *)
Fixpoint allpass_from (c x1 y1 : A) (x : list A) : list A :=
  match x with
  | [] => []
  | x0 :: r => let y0 := fadd (fmul (fsub x0 y1) c) x1 in y0 :: allpass_from c x0 y0 r
  end.
Definition allpass (c : A) (x : list A) : list A := allpass_from c f0 f0 x.
(** sections one after the other *)
Definition chain (cs x : list A) : list A := fold_left (fun s c => allpass c s) cs x.

Fixpoint evens {X} (l : list X) : list X :=
  match l with a :: _ :: r => a :: evens r | [a] => [a] | [] => [] end.
Fixpoint odds {X} (l : list X) : list X :=
  match l with _ :: b :: r => b :: odds r | _ => [] end.
Fixpoint weave {X} (a b : list X) : list X :=
  match a, b with x :: a', y :: b' => x :: y :: weave a' b' | _, _ => [] end.
Fixpoint zip (f : A -> A -> A) (a b : list A) : list A :=
  match a, b with x :: a', y :: b' => f x y :: zip f a' b' | _, _ => [] end.

Definition iir_up2 (cs x : list A) : list A := weave (chain (evens cs) x) (chain (odds cs) x).
Definition iir_down2 (cs x : list A) : list A :=
  zip (fun a b => fmul fhalf (fadd a b)) (chain (evens cs) (odds x)) (chain (odds cs) (evens x)).

(** The vector version always has two sections side by side: an odd number of
    coefficients is completed with a 1.  The final mean is written the other way
    round. *)
Definition even_up (cs : list A) : list A := if Nat.odd (length cs) then cs ++ [f1] else cs.
Definition iir_up2_sse (cs x : list A) : list A := iir_up2 (even_up cs) x.
Definition iir_down2_sse (cs x : list A) : list A :=
  zip (fun a b => fmul (fadd b a) fhalf)
    (chain (evens (even_up cs)) (odds x)) (chain (odds (even_up cs)) (evens x)).
End Iir.

(** ** Configurations *)

(** whether vector code is used *)
Definition vector (plat : platform) (f : rfilter) (use_sse : bool) : bool :=
  match f with FILTER_FIR => has_sse plat || has_neon plat | FILTER_IIR => has_sse plat end && use_sse.

(** block sizes that are supported *)
Definition size_ok (f : rfilter) (md : rmode) (ratio n : Z) : Prop :=
  match ratio, f, md with
  | 1, _, _ => True
  | 2, FILTER_FIR, UP => n < 2 ^ 31 - 4
  | 2, FILTER_FIR, DOWN => n mod 2 = 0
  | 2, FILTER_IIR, UP => 0 < n
  | 2, FILTER_IIR, DOWN => 0 < n /\ n mod 2 = 0
  | _, _, UP => True
  | _, _, DOWN => n mod ratio = 0
  end.

(** number of samples written for n input samples *)
Definition out_size (md : rmode) (ratio n : Z) : Z :=
  match md with UP => n * ratio | DOWN => n / ratio end.

(** number of floats read behind the input samples (without using them) *)
Definition over_read (vec : bool) (f : rfilter) (md : rmode) (ratio : Z) : Z :=
  match f, md with
  | FILTER_IIR, DOWN => if vec && (1 <? ratio) then 2 else 0
  | _, _ => 0
  end.

(** configurations in which the output may be written over the beginning of the input *)
Definition in_place_ok (vec : bool) (f : rfilter) (md : rmode) (ratio : Z) : Prop :=
  md = DOWN /\ (ratio = 4 \/ ratio = 8 \/ ratio = 2 /\ (f = FILTER_FIR -> vec = false)).

Section Resample.
Context {A : arith}.

(** The coefficients of the stage for ratio s as floats.  FIR upsampling uses
    doubled taps. *)
Definition coeffs (f : rfilter) (md : rmode) (prec s : Z) : list A :=
  match f with
  | FILTER_FIR =>
      match fir_table s prec with
      | Some t => map (fun d => lit d (match md with UP => 1 | DOWN => 0 end)) t
      | None => []
      end
  | FILTER_IIR =>
      match iir_table s prec with Some (t, _) => map (fun d => lit d 0) t | None => [] end
  end.

(** one 2x stage; [vec] is only relevant for IIR *)
Definition stage (f : rfilter) (md : rmode) (prec : Z) (vec : bool) (s : Z) : list A -> list A :=
  let cs := coeffs f md prec s in
  match f, md with
  | FILTER_FIR, UP => fir_up2 cs
  | FILTER_FIR, DOWN => fir_down2 cs
  | FILTER_IIR, UP => if vec then iir_up2_sse cs else iir_up2 cs
  | FILTER_IIR, DOWN => if vec then iir_down2_sse cs else iir_down2 cs
  end.

(** the whole resampler *)
Definition resample (f : rfilter) (md : rmode) (prec : Z) (vec : bool) (ratio : Z) (x : list A) : list A :=
  let S s := stage f md prec vec s in
  match md with
  | UP => if ratio =? 1 then x else if ratio =? 2 then S 2 x
          else if ratio =? 4 then S 4 (S 2 x) else S 8 (S 4 (S 2 x))
  | DOWN => if ratio =? 1 then x else if ratio =? 2 then S 2 x
          else if ratio =? 4 then S 2 (S 4 x) else S 2 (S 4 (S 8 x))
  end.

(** The same for a FIR resampler using vector code, whose order of additions
    depends on block sizes and addresses. *)
Definition stage_any (f : rfilter) (md : rmode) (prec : Z) (vec : bool) (s : Z) (x y : list A) : Prop :=
  match f, md with
  | FILTER_FIR, UP => fir_up_any vec (coeffs f md prec s) x y
  | FILTER_FIR, DOWN => fir_down_any vec (coeffs f md prec s) x y
  | FILTER_IIR, _ => y = stage f md prec vec s x
  end.

Definition resample_any (f : rfilter) (md : rmode) (prec : Z) (vec : bool) (ratio : Z) (x y : list A) : Prop :=
  let S s := stage_any f md prec vec s in
  match md with
  | UP => if ratio =? 1 then y = x else if ratio =? 2 then S 2 x y
          else if ratio =? 4 then exists a, S 2 x a /\ S 4 a y
          else exists a b, S 2 x a /\ S 4 a b /\ S 8 b y
  | DOWN => if ratio =? 1 then y = x else if ratio =? 2 then S 2 x y
          else if ratio =? 4 then exists a, S 4 x a /\ S 2 a y
          else exists a b, S 8 x a /\ S 4 a b /\ S 2 b y
  end.
End Resample.
