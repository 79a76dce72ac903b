(** Model of src/math/TensorMath.cpp, reference CPU path.

    Simplifications, for the whole file:
    - the BLAS, CLBLAS and OpenCL branches are not modelled;
    - [int] and [unsigned int] arguments and indices are unbounded (no overflow);
    - the tensor written is different from the tensors read (no aliasing). *)
From Verif Require Import Base Tensor_Model Num.

Section MathModel.
Context {D : Type}.
Variable K : num D.

(** Read-modify-write on the memory of a tensor: each action combines the present value
    of the addressed element with the given value. *)
Definition run_with (comb : D -> D -> D) (t : tensor D) (ops : list (nat * res D)) : res (tensor D) :=
  match ops with
  | [] => Ok t
  | _ => l <- buffer t ;; l' <- exec_with comb ops l ;; Ok (with_data t l')
  end.

(** The element [e] behind the first element of sample [sm]. *)
Definition sample_elt (t : tensor D) (sm e : nat) : res D :=
  l <- buffer t ;; load l (offset t 0 0 0 sm + e).

(** TensorMath.cpp:79-82 and 150-153: how the new value is combined with the old one.
    For beta == 0 the C++ code does not read the old value. *)
Definition scale_add (alpha beta : D) (old sum : D) : D :=
  if nzerob K beta then nmul K alpha sum else nadd K (nmul K beta old) (nmul K alpha sum).

(** TensorMath.cpp:66-78: the sum over k. *)
Definition gemm_sum (transA transB : bool) (k : nat) (A : tensor D) (smA ldA : nat)
           (B : tensor D) (smB ldB : nat) (i j : nat) : res D :=
  foldm (fun sum k =>
    a <- sample_elt A smA (if transA then k * ldA + i else i * ldA + k) ;;
    b <- sample_elt B smB (if transB then j * ldB + k else k * ldB + j) ;;
    Ok (nadd K sum (nmul K a b))) (seq 0 k) (n0 K).

(** TensorMath.cpp:64-83: one iteration of the parallel loop over the rows. *)
Definition gemm_row (transA transB : bool) (n k : nat) (A : tensor D) (smA ldA : nat)
           (B : tensor D) (smB ldB : nat) (C : tensor D) (smC ldC : nat) (i : nat) : list (nat * res D) :=
  for_ n (fun j => [(offset C 0 0 0 smC + (ldC * i + j), gemm_sum transA transB k A smA ldA B smB ldB i j)]).

(** TensorMath.cpp:15-91. *)
Definition gemm (row_major transA transB : bool) (m n k : nat) (alpha : D) (A : tensor D) (smA ldA : nat)
           (B : tensor D) (smB ldB : nat) (beta : D) (C : tensor D) (smC ldC : nat) : res (tensor D) :=
  if negb row_major then Fatal
  else run_with (scale_add alpha beta) C
         (for_ m (fun i => gemm_row transA transB n k A smA ldA B smB ldB C smC ldC i)).

(** TensorMath.cpp:140-149. *)
Definition gemv_sum (transA : bool) (n : nat) (A : tensor D) (smA ldA : nat)
           (X : tensor D) (smX incX : nat) (i : nat) : res D :=
  foldm (fun sum j =>
    a <- sample_elt A smA (if transA then j * ldA + i else i * ldA + j) ;;
    x <- sample_elt X smX (j * incX) ;;
    Ok (nadd K sum (nmul K x a))) (seq 0 n) (n0 K).

(** TensorMath.cpp:93-159. *)
Definition gemv (row_major transA : bool) (m n : nat) (alpha : D) (A : tensor D) (smA ldA : nat)
           (X : tensor D) (smX incX : nat) (beta : D) (Y : tensor D) (smY incY : nat) : res (tensor D) :=
  if negb row_major then Fatal
  else run_with (scale_add alpha beta) Y
         (for_ m (fun i => [(offset Y 0 0 0 smY + i * incY, gemv_sum transA n A smA ldA X smX incX i)])).

(** Arguments of IM2COL and COL2IM (TensorMath.cpp:162, 262). *)
Record geometry : Type := mkGeo {
  g_width : nat;
  g_height : nat;
  g_maps : nat;
  g_samples : nat;
  g_kw : nat;
  g_kh : nat;
  g_sw : nat;
  g_sh : nat;
  g_pw : nat;
  g_ph : nat
}.

(** TensorMath.cpp:213 and 214: signed division truncates towards zero. *)
Definition out_dim (pad size kernel stride : nat) : Z :=
  (Z.quot (2 * Z.of_nat pad + Z.of_nat size - Z.of_nat kernel) (Z.of_nat stride) + 1)%Z.
Definition col_width (g : geometry) : Z := out_dim (g_pw g) (g_width g) (g_kw g) (g_sw g).
Definition col_height (g : geometry) : Z := out_dim (g_ph g) (g_height g) (g_kh g) (g_sh g).
(** TensorMath.cpp:215. *)
Definition col_maps (g : geometry) : nat := g_kw g * g_kh g * g_maps g.

(** TensorMath.cpp:217-221. *)
Definition size_matches (g : geometry) (t : tensor D) : bool :=
  (Z.of_nat (g_samples g) * col_width g * col_height g * Z.of_nat (col_maps g) =?
   Z.of_nat (samples t * width t * height t * maps t))%Z.

(** TensorMath.cpp:229-231: the kernel column, kernel row and input map of a column map. *)
Definition col_kx (g : geometry) (tm : nat) : nat := tm mod g_kw g.
Definition col_ky (g : geometry) (tm : nat) : nat := (tm / g_kw g) mod g_kh g.
Definition col_imap (g : geometry) (tm : nat) : nat := tm / (g_kw g * g_kh g).
(** TensorMath.cpp:233 and 236. *)
Definition col_iy (g : geometry) (tm oy : nat) : Z := (Z.of_nat (oy * g_sh g) - Z.of_nat (g_ph g) + Z.of_nat (col_ky g tm))%Z.
Definition col_ix (g : geometry) (tm ox : nat) : Z := (Z.of_nat (ox * g_sw g) - Z.of_nat (g_pw g) + Z.of_nat (col_kx g tm))%Z.
(** TensorMath.cpp:239. *)
Definition col_src (g : geometry) (tm oy ox : nat) : Z :=
  ((Z.of_nat (col_imap g tm) * Z.of_nat (g_height g) + col_iy g tm oy) * Z.of_nat (g_width g) + col_ix g tm ox)%Z.
(** TensorMath.cpp:238. *)
Definition col_dst (g : geometry) (sample oy ox : nat) : nat :=
  (sample * Z.to_nat (col_height g) + oy) * Z.to_nat (col_width g) + ox.

Definition inside (i : Z) (n : nat) : bool := ((0 <=? i) && (i <? Z.of_nat n))%Z.

(** TensorMath.cpp:224-252: one iteration of the parallel loop over the samples. *)
Definition im2col_sample (g : geometry) (source target : tensor D) (sample : nat) : list (nat * res D) :=
  for_ (col_maps g) (fun tm =>
  for_ (Z.to_nat (col_height g)) (fun oy =>
    if inside (col_iy g tm oy) (g_height g) then
      for_ (Z.to_nat (col_width g)) (fun ox =>
        [(offset target 0 0 0 tm + col_dst g sample oy ox,
          if inside (col_ix g tm ox) (g_width g)
          then sample_elt source sample (Z.to_nat (col_src g tm oy ox))
          else Ok (n0 K))])
    else
      for_ (Z.to_nat (col_width g)) (fun ox =>
        [(offset target 0 0 0 tm + col_dst g sample oy ox, Ok (n0 K))]))).

(** Line 213 and 214 divide by the strides: a stride of zero is undefined. *)
Definition zero_stride (g : geometry) : bool := (g_sw g =? 0) || (g_sh g =? 0).

(** TensorMath.cpp:162-259. *)
Definition im2col (g : geometry) (source target : tensor D) : res (tensor D) :=
  if zero_stride g then UB
  else if size_matches g target
  then run_stores target (for_ (g_samples g) (fun sample => im2col_sample g source target sample))
  else Fatal.

(** TensorMath.cpp:382-385; [None] is smA == -1. *)
Definition set_sample (A : tensor D) (sm : option nat) (value : D) : res (tensor D) :=
  match sm with
  | None => run_stores A (for_ (offset A 0 0 0 (samples A)) (fun e => [(e, Ok value)]))
  | Some s => run_stores A (for_from (offset A 0 0 0 s) (offset A 0 0 0 (s + 1)) (fun e => [(e, Ok value)]))
  end.

(** TensorMath.cpp:323-343.  The test in line 335 compares [iy], not [ix], with the width. *)
Definition col2im_ops (g : geometry) (source target : tensor D) : list (nat * res D) :=
  for_ (g_samples g) (fun sample =>
  for_ (col_maps g) (fun tm =>
  for_ (Z.to_nat (col_height g)) (fun oy =>
    if inside (col_iy g tm oy) (g_height g) then
      for_ (Z.to_nat (col_width g)) (fun ox =>
        if ((0 <=? col_ix g tm ox) && (col_iy g tm oy <? Z.of_nat (g_width g)))%Z then
          [(offset source 0 0 0 sample + Z.to_nat (col_src g tm oy ox),
            sample_elt target tm (col_dst g sample oy ox))]
        else [])
    else []))).

(** TensorMath.cpp:262-349; [source] is written, [target] is read. *)
Definition col2im (g : geometry) (source target : tensor D) : res (tensor D) :=
  cleared <- set_sample source None (n0 K) ;;
  if zero_stride g then UB
  else if size_matches g target then run_with (nadd K) cleared (col2im_ops g cleared target) else Fatal.

(** TensorMath.cpp:393-450. *)
Definition sms (source target : tensor D) : res (tensor D) :=
  run_stores target
    (for_ (samples target) (fun sample =>
     for_ (maps target) (fun map =>
     for_ (width target * height target) (fun e =>
       [(offset target 0 0 map sample + e,
         l <- buffer source ;; load l (offset source 0 0 sample map + e))])))).

(** TensorMath.cpp:504-510. *)
Definition down_sum (source : tensor D) (rw rh : nat) (tx ty map sample : nat) : res D :=
  foldm (fun sum r => v <- get source (rw * tx + snd r) (rh * ty + fst r) map sample ;; Ok (nadd K sum v))
        (for_ rh (fun ry => for_ rw (fun rx => [(ry, rx)]))) (n0 K).

(** TensorMath.cpp:452-523. *)
Definition down (source target : tensor D) (rw rh : nat) (factor : D) : res (tensor D) :=
  run_stores target
    (for_ (samples target) (fun sample =>
     for_ (maps target) (fun map =>
     for_ (height target) (fun ty =>
     for_ (width target) (fun tx =>
       [(offset target tx ty map sample,
         s <- down_sum source rw rh tx ty map sample ;; Ok (nmul K s factor))]))))).

(** TensorMath.cpp:525-594. *)
Definition up (source target : tensor D) (rw rh : nat) (factor : D) : res (tensor D) :=
  run_stores target
    (for_ (samples source) (fun sample =>
     for_ (maps source) (fun map =>
     for_ (height source) (fun y =>
     for_ (width source) (fun x =>
     for_ rh (fun ry =>
     for_ rw (fun rx =>
       [(offset target (rw * x + rx) (rh * y + ry) map sample,
         v <- get source x y map sample ;; Ok (nmul K v factor))]))))))).

(** TensorMath.cpp:596-620. *)
Definition add_elt (a b : tensor D) (e : nat) : list (nat * res D) :=
  [(e, la <- buffer a ;; lb <- buffer b ;; va <- load la e ;; vb <- load lb e ;; Ok (nadd K va vb))].
Definition add_tensors (a b target : tensor D) : res (tensor D) :=
  if negb (samples a =? samples b) || negb (samples b =? samples target)
     || negb (elements a =? elements b) || negb (elements b =? elements target) then Fatal
  else run_stores target (for_ (elements a) (fun e => add_elt a b e)).

End MathModel.
