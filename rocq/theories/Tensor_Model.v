(** Model of class Conv::Tensor (include/cn24/util/Tensor.h, src/util/Tensor.cpp):
    shape, element storage and the operations that move elements around.

    Simplifications, for the whole file:
    - sizes are unbounded [nat]; std::size_t wrap-around is treated in [SizeWrap_Model];
    - OpenCL branches (BUILD_OPENCL) are not modelled;
    - the element type is a parameter: these functions only move elements. *)
From Verif Require Import Base.

Section TensorModel.
Variable D : Type.
Variable zero : D.
(** Contents of memory returned by [new datum[]]: arbitrary (Tensor.cpp:157). *)
Variable junk : nat -> D.

(** Tensor.h:292-302.  [data = None] is [data_ptr_ == nullptr]. *)
Record tensor : Type := mkTensor {
  samples : nat;
  width : nat;
  height : nat;
  maps : nat;
  elements : nat;
  data : option (list D)
}.

(** Tensor.cpp:37-39, default member initializers Tensor.h:293-302. *)
Definition empty_tensor : tensor := mkTensor 0 0 0 0 0 None.

(** Tensor.h:128-135. *)
Definition offset (t : tensor) (x y map sample : nat) : nat :=
  sample * maps t * width t * height t + map * width t * height t + y * width t + x.

(** Access through [data_ptr_]; dereferencing a null pointer is UB. *)
Definition buffer (t : tensor) : res (list D) :=
  match data t with Some l => Ok l | None => UB end.
Definition with_data (t : tensor) (l : list D) : tensor :=
  mkTensor (samples t) (width t) (height t) (maps t) (elements t) (Some l).

(** Tensor.h:254-258: [*data_ptr_const(x,y,map,sample)]. *)
Definition get (t : tensor) (x y map sample : nat) : res D :=
  l <- buffer t ;; load l (offset t x y map sample).

(** Runs a list of stores on the tensor's memory.  No store needs the buffer, so an
    empty list is fine even for a null pointer. *)
Definition run_stores (t : tensor) (ops : list (nat * res D)) : res tensor :=
  match ops with
  | [] => Ok t
  | _ => l <- buffer t ;; l' <- exec ops l ;; Ok (with_data t l')
  end.

(** Tensor.cpp:395-433 (ownership of the memory is modelled in [Heap_Model]). *)
Definition delete_if_possible (t : tensor) : tensor := empty_tensor.

(** Tensor.cpp:174-194. *)
Definition reshape (t : tensor) (s w h m : nat) : tensor * bool :=
  match data t with
  | None => (t, false)
  | Some l =>
    let proposed := s * m * w * h in
    if elements t =? proposed then (mkTensor s w h m proposed (Some l), true)
    else (t, false)
  end.

(** Tensor.cpp:132-167 with preallocated_memory == nullptr.  For a null [data_ptr_]
    the comparison in line 139 is equal and DeleteIfPossible is skipped; a tensor
    without memory keeps its (zero) shape then. *)
Definition resize (t : tensor) (s w h m : nat) : tensor :=
  let '(t1, reshaped) := reshape t s w h m in
  if reshaped then t1
  else
    let t2 := match data t with None => t | Some _ => delete_if_possible t end in
    let n := s * m * w * h in
    if n =? 0 then t2
    else mkTensor s w h m n (Some (map junk (seq 0 n))).

(** Tensor.cpp:81-84. *)
Definition new_tensor (s w h m : nat) : tensor := resize empty_tensor s w h m.

(** Tensor.cpp:46-63: Resize(tensor), then memcpy of [elements()] elements. *)
Definition copy_ctor (t : tensor) : res tensor :=
  let c := resize empty_tensor (samples t) (width t) (height t) (maps t) in
  run_stores c (for_ (elements t) (fun e =>
    [(e, l <- buffer t ;; load l e)])).

(** Tensor.cpp:91-109.  [sample = None] is the default argument -1. *)
Definition clear (t : tensor) (value : D) (sample : option nat) : res tensor :=
  match sample with
  | None => run_stores t (for_ (elements t) (fun e => [(e, Ok value)]))
  | Some s =>
    run_stores t (for_from (width t * height t * maps t * s)
                           (width t * height t * maps t * (s + 1))
                           (fun e => [(e, Ok value)]))
  end.

(** Tensor.cpp:197-217. *)
Definition transpose (t : tensor) : res tensor :=
  match data t with
  | None => Ok t
  | Some _ =>
    tmp <- copy_ctor t ;;
    let '(t1, ok) := reshape t (samples t) (height t) (width t) (maps t) in
    if ok then
      run_stores t1
        (for_ (samples t1) (fun s =>
         for_ (maps t1) (fun m =>
         for_ (width t1) (fun x =>
         for_ (height t1) (fun y =>
           [(offset t1 x y m s, get tmp y x m s)])))))
    else Fatal
  end.

(** Tensor.cpp:344-393.  Source and target are different tensors. *)
Definition copy_map (source : tensor) (source_sample source_map : nat)
           (target : tensor) (target_sample target_map : nat) : res (tensor * bool) :=
  if (samples source <=? source_sample) || (samples target <=? target_sample) then Ok (target, false)
  else if negb (width source =? width target) || negb (height source =? height target) then
    if (width target <? width source) || (height target <? height source) then Ok (target, false)
    else
      t' <- run_stores target
        (for_ (height source) (fun y =>
           for_ (width source) (fun x =>
             [(offset target x y target_map target_sample,
               get source x y source_map source_sample)])
           ++
           for_from (width source) (width target) (fun x =>
             [(offset target x y target_map target_sample, Ok zero)]))
         ++
         for_from (height source) (height target) (fun y =>
           for_ (width target) (fun x =>
             [(offset target x y target_map target_sample, Ok zero)]))) ;;
      Ok (t', true)
  else
    let n := width source * height source in
    t' <- run_stores target
      (for_ n (fun i =>
        [(offset target 0 0 target_map target_sample + i,
          l <- buffer source ;; load l (offset source 0 0 source_map source_sample + i))])) ;;
    Ok (t', true).

(** Tensor.cpp:323-342. *)
Definition copy_sample (source : tensor) (source_sample : nat)
           (target : tensor) (target_sample : nat) : res (tensor * bool) :=
  if negb (maps source =? maps target) then Ok (target, false)
  else if (negb (width source =? width target) || negb (height source =? height target))
          && ((width target <? width source) || (height target <? height source))
  then Ok (target, false)
  else
    foldm (fun '(t, result) map =>
             r <- copy_map source source_sample map t target_sample map ;;
             let '(t', ok) := r in Ok (t', result && ok))
          (seq 0 (maps source)) (target, true).

(** ** Searching (Tensor.cpp:535-580): comparison and lowest value are parameters *)
Variable gtb : D -> D -> bool.
Variable lowest : D.
Variable absd : D -> D.

(** Tensor.cpp:536-544 and 567-577: the running maximum over [n] candidates. *)
Definition scan_max (n : nat) (value : nat -> res D) (start : D) : res nat :=
  st <- foldm (fun '(max_x, max_y) x =>
                 v <- value x ;;
                 Ok (if gtb v max_y then (x, v) else (max_x, max_y)))
              (seq 0 n) (0, start) ;;
  Ok (fst st).

(** Tensor.cpp:535-547. *)
Definition maximum (t : tensor) (sample : nat) : res nat :=
  let n := width t * height t * maps t in
  scan_max n (fun x => l <- buffer t ;; load l (sample * n + x)) lowest.

(** Tensor.cpp:549-564 ([zero] is the start value, [absd] is fabs). *)
Definition abs_maximum (t : tensor) : res nat :=
  scan_max (elements t) (fun x => v <- (l <- buffer t ;; load l x) ;; Ok (absd v)) zero.

(** Tensor.cpp:566-580. *)
Definition pixel_maximum (t : tensor) (x y sample : nat) : res nat :=
  scan_max (maps t) (fun c => get t x y c sample) lowest.

End TensorModel.

Arguments mkTensor {D} _ _ _ _ _ _.
Arguments samples {D} t.
Arguments width {D} t.
Arguments height {D} t.
Arguments maps {D} t.
Arguments elements {D} t.
Arguments data {D} t.
Arguments empty_tensor {D}.
Arguments offset {D} t x y map sample.
Arguments buffer {D} t.
Arguments with_data {D} t l.
Arguments get {D} t x y map sample.
Arguments run_stores {D} t ops.
Arguments delete_if_possible {D} t.
Arguments reshape {D} t s w h m.
Arguments resize {D} junk t s w h m.
Arguments new_tensor {D} junk s w h m.
Arguments copy_ctor {D} junk t.
Arguments clear {D} t value sample.
Arguments transpose {D} junk t.
Arguments copy_map {D} zero source source_sample source_map target target_sample target_map.
Arguments copy_sample {D} zero source source_sample target target_sample.
Arguments scan_max {D} gtb n value start.
Arguments maximum {D} gtb lowest t sample.
Arguments abs_maximum {D} zero gtb absd t.
Arguments pixel_maximum {D} gtb lowest t x y sample.
