(** ConfusionMatrixLayer (src/net/ConfusionMatrixLayer.cpp) and BinaryStatLayer
    (src/net/BinaryStatLayer.cpp).  The counters have type [W] with arithmetic [K]: long double
    in the first, float in the second; [wide] converts a float to [W].  Class counts are
    unbounded (the code multiplies 32-bit numbers: 65536 classes and more would wrap).
    Not modelled: printing, the stat descriptors, and reallocation by a second Connect. *)
From Verif Require Import Base Float32 FloatOps Tensor_Model Num Act_Model.

Section ConfusionMatrix.
Context {W : Type} (K : num W) (wide : f32 -> W).

(** ConfusionMatrixLayer.h:74-89.  [cm_memory] is [matrix_] and [per_class_], which are null
    until Connect. *)
Record confusion : Type := mkCM {
  cm_classes : nat;
  cm_memory : option (list W * list W);
  cm_total : W;
  cm_right : W;
  cm_disabled : bool
}.

(** Lines 17-68: a new layer. *)
Definition cm_new (classes : nat) : confusion := mkCM classes None (n0 K) (n0 K) false.

(** Lines 212-223.  Stores through null pointers unless there are no classes. *)
Definition cm_reset (st : confusion) : res confusion :=
  match cm_memory st with
  | None => if cm_classes st =? 0 then Ok (mkCM (cm_classes st) None (n0 K) (n0 K) (cm_disabled st)) else UB
  | Some (matrix, per_class) =>
    matrix' <- exec (for_ (cm_classes st * cm_classes st) (fun c => [(c, Ok (n0 K))])) matrix ;;
    per_class' <- exec (for_ (cm_classes st) (fun c => [(c, Ok (n0 K))])) per_class ;;
    Ok (mkCM (cm_classes st) (Some (matrix', per_class')) (n0 K) (n0 K) (cm_disabled st))
  end.

(** Lines 148-183, with valid arguments.  [junk]: the fresh memory's contents. *)
Definition cm_connect (junk : nat -> W) (st : confusion) : res confusion :=
  cm_reset (mkCM (cm_classes st) (Some (map junk (seq 0 (cm_classes st * cm_classes st)), map junk (seq 0 (cm_classes st))))
                 (cm_total st) (cm_right st) (cm_disabled st)).

(** Lines 192-201. *)
Definition cm_pixel (st : confusion) (first_class second_class : nat) (weight : W) : res confusion :=
  match cm_memory st with
  | None => UB
  | Some (matrix, per_class) =>
    matrix' <- store_with (nadd K) matrix (first_class * cm_classes st + second_class) weight ;;
    per_class' <- store_with (nadd K) per_class second_class weight ;;
    Ok (mkCM (cm_classes st) (Some (matrix', per_class')) (nadd K (cm_total st) weight)
             (if first_class =? second_class then nadd K (cm_right st) weight else cm_right st) (cm_disabled st))
  end.

(** Lines 185-205. *)
Definition cm_forward (first second third : tensor f32) (st : confusion) : res confusion :=
  if cm_disabled st then Ok st else
  foldm (fun st p => let '(sample, y, x) := p in
    first_class <- pixel_maximum fgt f32_lowest first x y sample ;;
    second_class <- pixel_maximum fgt f32_lowest second x y sample ;;
    weight <- get third x y 0 sample ;;
    cm_pixel st first_class second_class (wide weight))
    (for_ (samples first) (fun sample => for_ (height first) (fun y => for_ (width first) (fun x => [(sample, y, x)])))) st.

(** ConfusionMatrixLayer.h:67-69. *)
Definition cm_set_disabled (d : bool) (st : confusion) : confusion :=
  mkCM (cm_classes st) (cm_memory st) (cm_total st) (cm_right st) d.

(** Calls on a connected layer. *)
Inductive stat_call :=
| CallForward (first second third : tensor f32)
| CallReset
| CallSetDisabled (d : bool).
Definition cm_call (st : confusion) (c : stat_call) : res confusion :=
  match c with
  | CallForward first second third => cm_forward first second third st
  | CallReset => cm_reset st
  | CallSetDisabled d => Ok (cm_set_disabled d st)
  end.
Definition cm_run (calls : list stat_call) (st : confusion) : res confusion := foldm cm_call calls st.

(** Lines 70-116 (UpdateAll): the overall and the average recognition rate and the average
    intersection over union, or None when nothing is reported.  [lt], [div] and [of_nat] are the
    comparison, the division and the conversion from integers. *)
Context (ltb : W -> W -> bool) (div : W -> W -> W) (of_nat : nat -> W).
Definition cm_arr_loop (classes : nat) (matrix per_class : list W) : res (W * W) :=
  foldm (fun acc c => let '(sum, ccount) := acc in
    pc <- load per_class c ;;
    if ltb (n0 K) pc then
      v <- load matrix (c * classes + c) ;;
      Ok (nadd K sum (div v pc), nadd K ccount (n1 K))
    else Ok (sum, ccount)) (seq 0 classes) (n0 K, n0 K).
Definition cm_union (classes : nat) (matrix : list W) (t : nat) : res W :=
  u <- foldm (fun u c => if c =? t then Ok u else
    a <- load matrix (t * classes + c) ;;
    b <- load matrix (c * classes + t) ;;
    Ok (nadd K (nadd K u a) b)) (seq 0 classes) (n0 K) ;;
  d <- load matrix (t * classes + t) ;;
  Ok (nadd K u d).
Definition cm_iou_loop (classes : nat) (matrix : list W) : res W :=
  foldm (fun sum t =>
    u <- cm_union classes matrix t ;;
    d <- load matrix (t * classes + t) ;;
    Ok (nadd K sum (if ltb (n0 K) u then div d u else n0 K))) (seq 0 classes) (n0 K).
Definition cm_update_all (st : confusion) : res (option (W * W * W)) :=
  if ltb (cm_total st) (n1 K) then Ok None else
  match cm_memory st with
  | None => if cm_classes st =? 0 then Ok None else UB
  | Some (matrix, per_class) =>
    acc <- cm_arr_loop (cm_classes st) matrix per_class ;;
    iu <- cm_iou_loop (cm_classes st) matrix ;;
    Ok (Some (div (nmul K (of_nat 100) (cm_right st)) (cm_total st),
              div (nmul K (of_nat 100) (fst acc)) (snd acc),
              div (nmul K (of_nat 100) iu) (of_nat (cm_classes st))))
  end.
End ConfusionMatrix.
Arguments confusion : clear implicits.

Section BinaryStat.
Context {W : Type} (K : num W) (wide : f32 -> W).

(** BinaryStatLayer.h:73-92. *)
Record binary : Type := mkBin {
  bs_thresholds : list f32;
  bs_tp : list W;
  bs_tn : list W;
  bs_fp : list W;
  bs_fn : list W;
  bs_disabled : bool
}.

(** Lines 30-38: the thresholds.  [(min_t + max_t) / 2.0]: the sum is a float sum, half of it is exact
    in double precision and then rounded to float, which is the float quotient. *)
Definition bs_threshold_values (n : nat) (min_t max_t : f32) : list f32 :=
  if n =? 1 then [fdiv (fadd min_t max_t) (f_of_Z 2)]
  else let interval := fdiv (fsub max_t min_t) (f_of_Z (Z.of_nat (n - 1))) in
       map (fun t => fadd min_t (fmul interval (f_of_Z (Z.of_nat t)))) (seq 0 n).

(** Lines 263-271. *)
Definition bs_reset (st : binary) : res binary :=
  let n := length (bs_thresholds st) in
  let zero := for_ n (fun t => [(t, Ok (n0 K))]) in
  tn <- exec zero (bs_tn st) ;; tp <- exec zero (bs_tp st) ;; fn <- exec zero (bs_fn st) ;; fp <- exec zero (bs_fp st) ;;
  Ok (mkBin (bs_thresholds st) tp tn fp fn (bs_disabled st)).

(** Lines 15-99: the constructor; [junk] is the contents of fresh memory. *)
Definition bs_new (junk : nat -> W) (n : nat) (min_t max_t : f32) : res binary :=
  if n <? 1 then Fatal else
  let fresh := map junk (seq 0 n) in
  bs_reset (mkBin (bs_threshold_values n min_t max_t) fresh fresh fresh fresh false).

(** Lines 238-253: what the iteration of threshold [t] adds to one of the four arrays: the one for
    elements whose output is above the threshold iff [sign] and whose label is positive iff [expected]. *)
Definition bs_adds (thresholds : list f32) (first second third : tensor f32) (sign expected : bool) (t : nat) : list (nat * res W) :=
  for_ (elements first) (fun s =>
    match (v <- elt first s ;; th <- load thresholds t ;; e <- elt second s ;; w <- elt third s ;; Ok (fgt v th, fgt e f32_zero, w)) with
    | Ok (sg, ex, w) => if Bool.eqb sg sign && Bool.eqb ex expected then [(t, Ok (wide w))] else []
    | Fatal => [(t, Fatal)]
    | UB => [(t, UB)]
    end).
(** Lines 232-256. *)
Definition bs_forward (first second third : tensor f32) (st : binary) : res binary :=
  if bs_disabled st then Ok st else
  let n := length (bs_thresholds st) in
  let adds := bs_adds (bs_thresholds st) first second third in
  tp <- exec_with (nadd K) (for_ n (adds true true)) (bs_tp st) ;;
  fp <- exec_with (nadd K) (for_ n (adds true false)) (bs_fp st) ;;
  fn <- exec_with (nadd K) (for_ n (adds false true)) (bs_fn st) ;;
  tn <- exec_with (nadd K) (for_ n (adds false false)) (bs_tn st) ;;
  Ok (mkBin (bs_thresholds st) tp tn fp fn (bs_disabled st)).

(** Lines 237-255: the parallel loop; iteration [t] in program order.  Buffers: 0 true positives,
    1 false positives, 2 false negatives, 3 true negatives. *)
Definition bs_kind (sign expected : bool) : nat :=
  match sign, expected with true, true => 0 | true, false => 1 | false, true => 2 | false, false => 3 end.
Definition bs_actions (thresholds : list f32) (first second third : tensor f32) (t : nat) : list (nat * nat * res W) :=
  for_ (elements first) (fun s =>
    match (v <- elt first s ;; th <- load thresholds t ;; e <- elt second s ;; w <- elt third s ;; Ok (fgt v th, fgt e f32_zero, w)) with
    | Ok (sg, ex, w) => [(bs_kind sg ex, t, Ok (wide w))]
    | Fatal => [(0, t, Fatal)]
    | UB => [(0, t, UB)]
    end).

Definition bs_set_disabled (d : bool) (st : binary) : binary :=
  mkBin (bs_thresholds st) (bs_tp st) (bs_tn st) (bs_fp st) (bs_fn st) d.
Definition bs_call (st : binary) (c : stat_call) : res binary :=
  match c with
  | CallForward first second third => bs_forward first second third st
  | CallReset => bs_reset st
  | CallSetDisabled d => Ok (bs_set_disabled d st)
  end.
Definition bs_run (calls : list stat_call) (st : binary) : res binary := foldm bs_call calls st.
End BinaryStat.
Arguments binary : clear implicits.

(** Lines 101-167 (UpdateAll), in float arithmetic.  The reported numbers are given before the
    multiplication by 100; None means that the number is not reported. *)
Definition minus_one : f32 := 3212836864%Z.
Definition minus_two : f32 := 3221225472%Z.
Definition bs_ratio (a b : f32) : f32 := if fgt (fadd a b) f32_zero then fdiv a (fadd a b) else minus_one.
Definition bs_f1 (precision recall : f32) : f32 :=
  if fge precision f32_zero && fge recall f32_zero
  then fdiv (fmul (fmul (f_of_Z 2) precision) recall) (fadd precision recall) else minus_one.
(** Lines 103-128; [tfmax] is -1 (None) when no threshold was chosen. *)
Definition bs_choose (st : binary f32) : res (f32 * option nat) :=
  foldm (fun acc t => let '(fmax, tfmax) := acc in
    tp <- load (bs_tp st) t ;; fp <- load (bs_fp st) t ;; fn <- load (bs_fn st) t ;;
    let f1 := bs_f1 (bs_ratio tp fp) (bs_ratio tp fn) in
    if fgt f1 fmax then Ok (f1, Some t) else Ok (fmax, tfmax)) (seq 0 (length (bs_thresholds st))) (minus_two, None).
Record binary_stats : Type := mkBS {
  st_fpr : option f32; st_fnr : option f32; st_precision : option f32; st_recall : option f32; st_acc : option f32; st_f1 : option f32
}.
Definition reported (v : f32) : option f32 := if fge v f32_zero then Some v else None.
(** Lines 130-166; an index of -1 reads outside the arrays. *)
Definition bs_update_all (st : binary f32) : res binary_stats :=
  c <- bs_choose st ;;
  match snd c with
  | None => UB
  | Some t =>
    tp <- load (bs_tp st) t ;; fp <- load (bs_fp st) t ;; fn <- load (bs_fn st) t ;; tn <- load (bs_tn st) t ;;
    let precision := bs_ratio tp fp in
    let recall := bs_ratio tp fn in
    Ok (mkBS (reported (bs_ratio fp tn))
             (reported (if fgt (fadd tp fn) f32_zero then fdiv fn (fadd tp fn) else minus_one))
             (reported precision) (reported recall)
             (reported (fdiv (fadd tp tn) (fadd (fadd (fadd tp tn) fn) fp)))
             (reported (bs_f1 precision recall)))
  end.
