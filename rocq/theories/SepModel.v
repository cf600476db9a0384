(** Model of resizing with a separable kernel — crates/zune-imageprocs/src/resize/seperable_kernel.rs, for one channel of
    integer samples. The kernel function is a parameter: those of the Lanczos and sinc methods use the sine. Loops over rows
    and columns are maps. A sum starts at 0 (newer standard libraries start at -0, which the casts do not show). *)
From Verif Require Import Base F32.

(** [ConvKernel] — seperable_kernel.rs:358-363 *)
Record kern := Kern { kw : list f32 ; kstart : Z ; kend : Z }.

(** [x.floor() as i32]: saturating, NaN to 0 *)
Definition floor_i32 (x : f32) : Z :=
  match x with
  | S754_finite s m e => Z.max (- 2 ^ 31) (Z.min (2 ^ 31 - 1) (if 0 <=? e then cond_Zopp s (Zpos m * 2 ^ e) else cond_Zopp s (Zpos m) / 2 ^ (- e)))
  | S754_infinity s => if s then - 2 ^ 31 else 2 ^ 31 - 1
  | _ => 0
  end.
Definition f32_half : f32 := S754_finite false 8388608 (-24).

(** [start_idx] and [end_idx] — seperable_kernel.rs:376-382 *)
Definition window (a n center : Z) : Z * Z :=
  (center + Z.max (- a + 1) (- center), center + Z.min a (n - center - 1)).
(** The position of an output sample in the input — seperable_kernel.rs:375 *)
Definition position (ratio : f32) (o : nat) : f32 := fsub (fmul (fadd (of_int (Z.of_nat o)) f32_half) ratio) f32_half.
(** [precompute_kernels], one output sample — seperable_kernel.rs:365-411. More than six weights are a panic. *)
Definition precompute (kf : f32 -> f32) (a n : Z) (ratio : f32) (o : nat) : res kern :=
  let src := position ratio o in
  let '(s, e) := window a n (floor_i32 src) in
  let raw := map (fun i => kf (fsub (of_int (s + Z.of_nat i)) src)) (seq 0 (Z.to_nat (e - s + 1))) in
  if (6 <? length raw)%nat then Panic else
  let sum := fold_left fadd raw (of_int 0) in
  let ws := if SFltb (of_int 0) sum then let inv := fdiv (of_int 1) sum in map (fun w => fmul w inv) raw else raw in
  Ok (Kern (ws ++ repeat (of_int 0) (6 - length ws)) s e).
(** The weighted sum of a window of a row — seperable_kernel.rs:268-350. [kend - kstart] overflows for an empty
    window; a window of up to six samples that does not fit gives 0, a longer one a panic. *)
Definition weigh (line : list f32) (k : kern) : res f32 :=
  if (kend k <? kstart k) || (kstart k <? 0) then Panic else
  let cnt := Z.to_nat (kend k - kstart k + 1) in
  let part := firstn cnt (skipn (Z.to_nat (kstart k)) line) in
  if (length part =? cnt)%nat then Ok (fold_left (fun acc pw => fadd acc (fmul (fst pw) (snd pw))) (combine part (kw k)) (of_int 0))
  else if (cnt <=? 6)%nat then Ok (of_int 0) else Panic.
Fixpoint collect {A} (l : list (res A)) : res (list A) :=
  match l with [] => Ok [] | x :: l => do v <- x ; do r <- collect l ; Ok (v :: r) end.
(** The kernels of one direction, if its size changes — seperable_kernel.rs:24-54 *)
Definition kernels (kf : f32 -> f32) (a : Z) (inn out : nat) : res (list kern) :=
  collect (map (precompute kf a (Z.of_nat inn) (fdiv (of_int (Z.of_nat inn)) (of_int (Z.of_nat out)))) (seq 0 out)).
Definition resample (kf : f32 -> f32) (a : Z) (inn out : nat) (line : list f32) : res (list f32) :=
  do ks <- kernels kf a inn out ; collect (map (weigh line) ks).
(** A row that keeps its height: [resample_horizontal_only_precomputed] — seperable_kernel.rs:257-353 *)
Definition resize_row (hi : Z) (kf : f32 -> f32) (a : Z) (inn out : nat) (row : list Z) : res (list Z) :=
  if (inn =? out)%nat then Ok row else
  do l <- resample kf a inn out (map of_int row) ; Ok (map (to_uint hi) l).

(** [resample_separable_precomputed] — seperable_kernel.rs:74-254: rows first, then columns, each if its size changes. In a
    column a window that does not fit would be a panic and not 0; it is proved that all fit. *)
Definition rows_of {A} (w h : nat) (l : list A) : list (list A) := map (fun y => firstn w (skipn (y * w) l)) (seq 0 h).
Definition column (rows : list (list f32)) (x : nat) : list f32 := map (fun r => nth x r (of_int 0)) rows.
Definition resize_picture (hi : Z) (kf : f32 -> f32) (a : Z) (w h ow oh : nat) (inp : list Z) : res (list Z) :=
  if (w =? ow)%nat && (h =? oh)%nat then Ok inp else
  let rows := rows_of w h (map of_int inp) in
  do hs <- (if (w =? ow)%nat then Ok rows else collect (map (resample kf a w ow) rows)) ;
  do vs <- (if (h =? oh)%nat then Ok hs else
            do cols <- collect (map (fun x => resample kf a h oh (column hs x)) (seq 0 ow)) ;
            Ok (map (column cols) (seq 0 oh))) ;
  Ok (map (to_uint hi) (concat vs)).

(** [bicubic_kernel] — seperable_kernel.rs:445-467; Mitchell, Catmull-Rom, B-spline and Hermite — 8-13 *)
Definition bicubic (b c x : f32) : f32 :=
  let n := of_int in let x := SFabs x in
  if SFltb x (n 1) then
    let x2 := fmul x x in let x3 := fmul x2 x in
    fdiv (fadd (fadd (fmul (fsub (fsub (n 12) (fmul (n 9) b)) (fmul (n 6) c)) x3) (fmul (fadd (fadd (n (-18)) (fmul (n 12) b)) (fmul (n 6) c)) x2))
               (fsub (n 6) (fmul (n 2) b))) (n 6)
  else if SFltb x (n 2) then
    let x2 := fmul x x in let x3 := fmul x2 x in
    fdiv (fadd (fadd (fadd (fmul (fsub (SFopp b) (fmul (n 6) c)) x3) (fmul (fadd (fmul (n 6) b) (fmul (n 30) c)) x2))
                     (fmul (fsub (fmul (n (-12)) b) (fmul (n 48) c)) x))
               (fadd (fmul (n 8) b) (fmul (n 24) c))) (n 6)
  else of_int 0.
Definition third : f32 := fdiv (of_int 1) (of_int 3).
Definition mitchell : f32 -> f32 := bicubic third third.
Definition catmull_rom : f32 -> f32 := bicubic (of_int 0) f32_half.
Definition bspline : f32 -> f32 := bicubic (of_int 1) (of_int 0).
Definition hermite : f32 -> f32 := bicubic (of_int 0) (of_int 0).
