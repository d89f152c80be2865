(** Model of the functions of the extension module [lacuna._core] that take the arrays of a
    matrix (crates/lacuna-py/src/array_api/*.rs, [*_from_parts]): each rebuilds the native
    matrix with the given [check] flag, runs one kernel and returns the arrays of the result.

    Conventions as in MObj.v: a ValueError or a caught panic is [Panic]; array arguments are
    C-contiguous and of the right dtype. A returned tuple of arrays is written as a value
    without a native handle. *)
Require Import List ZArith Bool Arith.
Require Import Verif.Res Verif.Values Verif.Spec Verif.Mem Verif.SpecPy Verif.MCore Verif.MElementwise Verif.MScalar Verif.MConvert Verif.MHash Verif.MAcc Verif.MLinalg Verif.MReduce Verif.MStat Verif.MCum Verif.MNd Verif.MNd2 Verif.MPy Verif.MObj.
Import ListNotations.
Local Open Scope Z_scope.

Section Native.
Context {F : Fl}.

(** The arrays a function receives: elementwise.rs L72-L80 (CSR), L108-L116 (CSC),
    L144-L152 (COO), L180-L186 (COOND). *)
Inductive raw :=
| RCsr (nrows ncols : nat) (indptr indices : list Z) (data : list F)
| RCsc (nrows ncols : nat) (indptr indices : list Z) (data : list F)
| RCoo (nrows ncols : nat) (row col : list Z) (data : list F)
| RNd (shape indices : list Z) (data : list F).
(** The native matrices of lacuna-core/src/{csr,csc,coo,coond}.rs; e.g. csr.rs L10-L20 *)
Inductive core := KCsr (A : Csr F) | KCsc (A : Csc F) | KCoo (A : Coo F) | KNd (A : Nd F).

(** elementwise.rs L81-L89 *)
Definition load_csr nr nc p i (d : list F) (check : bool) : res (Csr F) :=
  match csr_from_parts nr nc p i d check with Some B => Ok B | None => Panic end.
(** elementwise.rs L117-L125 *)
Definition load_csc nr nc p i (d : list F) (check : bool) : res (Csc F) :=
  match csc_from_parts nr nc p i d check with Some B => Ok B | None => Panic end.
(** elementwise.rs L153-L161 *)
Definition load_coo nr nc r c (d : list F) (check : bool) : res (Coo F) :=
  let! o := coo_from_parts nr nc r c d check in
  match o with Some B => Ok B | None => Panic end.
(** elementwise.rs L187-L208; helpers.rs L9-L24 rejects negative dimensions. *)
Definition load_nd sh i (d : list F) (check : bool) : res (Nd F) :=
  assert! forallb (Z.leb 0) sh ;;
  let! o := nd_from_parts sh i d check in
  match o with Some B => Ok B | None => Panic end.
(** the four above: elementwise.rs L81-L208 *)
Definition load (x : raw) (check : bool) : res core :=
  match x with
  | RCsr nr nc p i d => let! A := load_csr nr nc p i d check in Ok (KCsr A)
  | RCsc nr nc p i d => let! A := load_csc nr nc p i d check in Ok (KCsc A)
  | RCoo nr nc r c d => let! A := load_coo nr nc r c d check in Ok (KCoo A)
  | RNd sh i d => let! A := load_nd sh i d check in Ok (KNd A)
  end.

(** Returned tuples: elementwise.rs L91-L97 *)
Definition ret_csr (A : Csr F) : res (value F) := Ok (VCsr (mkPyCs A None)).
(** elementwise.rs L127-L133 *)
Definition ret_csc (A : Csc F) : res (value F) := Ok (VCsc (mkPyCs A None)).
(** elementwise.rs L163-L169 *)
Definition ret_coo (A : Coo F) : res (value F) := Ok (VCoo (mkPyCoo A None)).
(** manipulation.rs L46-L50; [convert_shape_usize_to_i64] panics for a dimension above
    [i64::MAX] (helpers.rs L55-L60). *)
Definition ret_nd (A : Nd F) : res (value F) :=
  assert! forallb (fun n => n <=? i64_max) (nd_shape A) ;; Ok (VNd A).
(** reduce.rs L117-L118 (a number), L189 (a vector) *)
Definition ret_one {A} (mk : list nat -> list A -> value F) (r : res A) : res (value F) := let! s := r in Ok (mk [] [s]).
(** reduce.rs L189 *)
Definition ret_vec {A} (mk : list nat -> list A -> value F) (r : res (list A)) : res (value F) := let! v := r in Ok (mk [length v] v).

Variable e : Env F.

(** ** Functions of one matrix
    [abs_*]: elementwise.rs L221-L365; [sign_*]: L72-L218; [transpose_*]: linalg.rs L349-L453;
    [prune], [eliminate_zeros] (CSR only): utility.rs L382-L451. *)
Inductive nuop := NAbs | NSign | NTranspose | NPrune (eps : F) | NElim.
(** elementwise.rs L72-L365; linalg.rs L349-L453; utility.rs L382-L451 *)
Definition n_unary (op : nuop) (x : core) : res (value F) :=
  match op, x with
  | NAbs, KCsr A => let! B := abs_csr A in ret_csr B
  | NAbs, KCsc A => let! B := abs_csc A in ret_csc B
  | NAbs, KCoo A => let! B := abs_coo A in ret_coo B
  | NAbs, KNd A => let! B := abs_coond A in ret_nd B
  | NSign, KCsr A => let! B := sign_csr A in ret_csr B
  | NSign, KCsc A => let! B := sign_csc A in ret_csc B
  | NSign, KCoo A => let! B := sign_coo A in ret_coo B
  | NSign, KNd A => let! B := sign_coond A in ret_nd B
  | NTranspose, KCsr A => let! B := transpose_csr (e_threads e) (e_il e 0) (e_sch e 0) (e_srt e 0) A in ret_csr B
  | NTranspose, KCsc A => let! B := transpose_csc (e_threads e) (e_il e 0) (e_sch e 0) (e_srt e 0) A in ret_csc B
  | NTranspose, KCoo A => ret_coo (transpose_coo A)
  | NPrune eps, KCsr A => let! B := prune_csr (e_sch e 0) eps A in ret_csr B
  | NElim, KCsr A => let! B := eliminate_zeros_csr (e_sch e 0) A in ret_csr B
  | _, _ => Panic (* no such function *)
  end.

(** [mul_scalar_*]: elementwise.rs L369-L480, L1291-L1325; [remainder_scalar_*]: L583-L734;
    [pow_scalar_*]: L837-L988; [floordiv_scalar_*]: L1328-L1479. There is no division by a
    number: the package multiplies by its reciprocal. *)
Definition n_scalar (op : sop) (x : core) (alpha : F) : res (value F) :=
  match op, x with
  | SMul, KCsr A => let! B := mul_scalar_csr alpha A in ret_csr B
  | SMul, KCsc A => let! B := mul_scalar_csc alpha A in ret_csc B
  | SMul, KCoo A => let! B := mul_scalar_coo alpha A in ret_coo B
  | SMul, KNd A => let! B := mul_scalar_coond alpha A in ret_nd B
  | SFloorDiv, KCsr A => let! B := floordiv_scalar_csr alpha A in ret_csr B
  | SFloorDiv, KCsc A => let! B := floordiv_scalar_csc alpha A in ret_csc B
  | SFloorDiv, KCoo A => let! B := floordiv_scalar_coo alpha A in ret_coo B
  | SFloorDiv, KNd A => let! B := floordiv_scalar_coond alpha A in ret_nd B
  | SMod, KCsr A => let! B := rem_scalar_csr alpha A in ret_csr B
  | SMod, KCsc A => let! B := rem_scalar_csc alpha A in ret_csc B
  | SMod, KCoo A => let! B := rem_scalar_coo alpha A in ret_coo B
  | SMod, KNd A => let! B := rem_scalar_coond alpha A in ret_nd B
  | SPow, KCsr A => let! B := pow_scalar_csr alpha A in ret_csr B
  | SPow, KCsc A => let! B := pow_scalar_csc alpha A in ret_csc B
  | SPow, KCoo A => let! B := pow_scalar_coo alpha A in ret_coo B
  | SPow, KNd A => let! B := pow_scalar_coond alpha A in ret_nd B
  | SDiv, _ => Panic
  end.

(** [add], [sub], [hadamard] (CSR): elementwise.rs L22-L69, L1141-L1188, L1241-L1288;
    [div]: L1191-L1238, L1091-L1138; [floordiv]: L1041-L1088, L991-L1038; [remainder]:
    L483-L580; [pow]: L737-L834; COOND product: L1482-L1543. *)
Definition n_binary (op : bop) (x y : core) : res (value F) :=
  match x, y with
  | KCsr A, KCsr B =>
      let! C := match op with
                | BAdd => add_csr (e_sch e 0) A B
                | BSub => sub_csr (e_sch e 0) A B
                | BMul => hadamard_csr (e_sch e 0) A B
                | BDiv => div_csr (e_sch e 0) A B
                | BFloorDiv => floordiv_csr (e_sch e 0) A B
                | BMod => rem_csr (e_sch e 0) A B
                | BPow => pow_csr (e_sch e 0) A B
                end in ret_csr C
  | KCsc A, KCsc B =>
      match op with
      | BDiv => let! C := div_csc (e_sch e 0) A B in ret_csc C
      | BFloorDiv => let! C := floordiv_csc (e_sch e 0) A B in ret_csc C
      | BMod => let! C := rem_csc (e_sch e 0) A B in ret_csc C
      | BPow => let! C := pow_csc (e_sch e 0) A B in ret_csc C
      | _ => Panic
      end
  | KNd A, KNd B =>
      match op with
      | BMul => let! C := hadamard_broadcast_coond (e_schz e 0) (e_schz e 1) (e_ord e) (e_threads e) (e_srt e 0) A B in ret_nd C
      | _ => Panic
      end
  | _, _ => Panic
  end.

(** ** Products with a dense operand.
    [spmv_from_parts] (CSR): linalg.rs L20-L42 *)
Definition n_spmv (x : core) (v : list F) : res (value F) :=
  match x with KCsr A => ret_vec VArr (spmv_csr (e_schv e) A v) | _ => Panic end.
(** [spmm_from_parts] (CSR): linalg.rs L313-L346. The operand is a 2-D array of shape
    [(r, k)], which has [r * k] elements. *)
Definition n_spmm (x : core) (r k : nat) (b : list F) : res (value F) :=
  match x with
  | KCsr A =>
      let! _ := reshape_to [r; k] b in
      assert! (r =? csr_ncols A)%nat ;;
      let! c := spmm_csr A b k in
      arr_new VArr (reshape_to [csr_nrows A; k] c)
  | _ => Panic
  end.
(** The checks on [b_shape] and the 2-D result, linalg.rs L64-L82, L104-L122, L144-L162; the
    product of the remaining dimensions is the one the kernel has computed with checks. *)
Definition n_flat (nrows ncols : nat) (b_shape : list Z) (c : res (list F)) : res (value F) :=
  assert! forallb (Z.leb 0) b_shape ;;
  match b_shape with
  | [] => Panic
  | n0 :: rest =>
      assert! (n0 =? Z.of_nat ncols) ;;
      let! c := c in
      arr_new VArr (reshape_to [nrows; Z.to_nat (cells rest)] c)
  end.
(** [tensordot_*_dense_axes1x0]: linalg.rs L45-L162; [coond_tensordot_dense_axis]: L165-L199 *)
Definition n_tensordot (x : core) (axis : Z) (b : list F) (b_shape : list Z) : res (value F) :=
  match x with
  | KCsr A => n_flat (csr_nrows A) (csr_ncols A) b_shape (tensordot_csr A b b_shape)
  | KCsc A => n_flat (csc_nrows A) (csc_ncols A) b_shape (tensordot_csc (e_ilo e) A b b_shape)
  | KCoo A => n_flat (coo_nrows A) (coo_ncols A) b_shape (tensordot_coo (e_ilo e) A b b_shape)
  | KNd A =>
      assert! forallb (Z.leb 0) b_shape ;;
      assert! (0 <=? axis) ;;
      let! C := tensordot_coond (e_srt e 0) A (Z.to_nat axis) b b_shape in ret_nd C
  end.
(** [vecdot_*_axis0]: linalg.rs L202-L274; [coond_vecdot_axis]: L277-L309 *)
Definition n_vecdot (x : core) (axis : Z) (v : list F) : res (value F) :=
  match x with
  | KCsr A => ret_vec VArr (vecdot_csr_axis0 (e_dist e) A v)
  | KCsc A => ret_vec VArr (vecdot_csc_axis0 A v)
  | KCoo A => ret_vec VArr (vecdot_coo_axis0 (e_threads e) (e_dist e) A v)
  | KNd A => assert! (0 <=? axis) ;; let! C := vecdot_coond (e_srt e 0) A (Z.to_nat axis) v in ret_nd C
  end.

(** ** Reductions: reduce.rs. Totals: L100-L166, L261-L302, L397-L438, L537-L617, L713-L755,
    L855-L896, L1040-L1080, L1335-L1354, L1403-L1422, L1471-L1490, L1539-L1603, L1702-L1745,
    L1844-L1887, L1986-L2024. *)
Definition n_total (op : rop) (x : core) : res (value F) :=
  match op, x with
  | RSum, KCsr A => ret_one VArr (sum_csr (e_zero e) (e_split e) A)
  | RSum, KNd A => ret_one VArr (sum_coond (e_zero e) (e_split e) A)
  | RMean, KNd A => ret_one VArr (mean_coond (e_zero e) (e_split e) A)
  | RProd, KCsr A => ret_one VArr (prod_csr (e_split e) A)
  | RProd, KCsc A => ret_one VArr (prod_csc (e_split e) A)
  | RProd, KCoo A => ret_one VArr (prod_coo (e_split e) A)
  | RProd, KNd A => ret_one VArr (prod_coond (e_split e) A)
  | RMin, KCsr A => ret_one VArr (min_csr (e_vmin e) (e_smin e) (e_split e) A)
  | RMin, KCsc A => ret_one VArr (min_csc (e_vmin e) (e_smin e) (e_split e) A)
  | RMin, KCoo A => ret_one VArr (min_coo (e_vmin e) (e_smin e) (e_split e) A)
  | RMax, KCsr A => ret_one VArr (max_csr (e_vmax e) (e_smax e) (e_split e) A)
  | RMax, KCsc A => ret_one VArr (max_csc (e_vmax e) (e_smax e) (e_split e) A)
  | RMax, KCoo A => ret_one VArr (max_coo (e_vmax e) (e_smax e) (e_split e) A)
  | RVar c, KCsr A => ret_one VArr (var_csr (e_split e) A c)
  | RVar c, KCsc A => ret_one VArr (var_csc (e_split e) A c)
  | RVar c, KCoo A => ret_one VArr (var_coo (e_split e) A c)
  | RVar c, KNd A => ret_one VArr (var_coond (e_split e) A c)
  | RStd c, KCsr A => ret_one VArr (std_of (var_csr (e_split e) A c))
  | RStd c, KCsc A => ret_one VArr (std_of (var_csc (e_split e) A c))
  | RStd c, KCoo A => ret_one VArr (std_of (var_coo (e_split e) A c))
  | RStd c, KNd A => ret_one VArr (std_of (var_coond (e_split e) A c))
  | RAll, KCsr A => ret_one VBools (Ok (all_csr A))
  | RAll, KCsc A => ret_one VBools (Ok (all_csc A))
  | RAll, KCoo A => ret_one VBools (all_coo (e_srt2 e) A)
  | RAll, KNd A => ret_one VBools (all_coond A)
  | RAny, KCsr A => ret_one VBools (Ok (any_csr A))
  | RAny, KCsc A => ret_one VBools (Ok (any_csc A))
  | RAny, KCoo A => ret_one VBools (any_coo (e_srt2 e) A)
  | RAny, KNd A => ret_one VBools (any_coond A)
  | _, _ => Panic
  end.
(** One result per row: reduce.rs L169-L189, L215-L235, L305-L325, L351-L371, L441-L462,
    L489-L510, L620-L663, L759-L804, L899-L942, L992-L1013, L1357-L1377, L1425-L1445,
    L1493-L1513, L1606-L1651, L1748-L1793, L1890-L1935. *)
Definition n_rows (op : rop) (x : core) : res (value F) :=
  let t := e_threads e in let il := e_il e 0 in let sch := e_sch e 0 in let srt := e_srt e 0 in
  match op, x with
  | RSum, KCsr A => ret_vec VArr (row_sums_csr (e_schv e) A)
  | RProd, KCsr A => ret_vec VArr (row_prods_csr A)
  | RProd, KCsc A => ret_vec VArr (row_prods_csc t il sch srt A)
  | RProd, KCoo A => ret_vec VArr (row_prods_coo t (e_dist e) A)
  | RMin, KCsr A => ret_vec VArr (row_mins_csr (e_vmin e) (e_smin e) A)
  | RMin, KCsc A => ret_vec VArr (row_mins_csc (e_vmin e) (e_smin e) t il sch srt A)
  | RMin, KCoo A => ret_vec VArr (row_mins_coo (e_smin e) t (e_dist e) A)
  | RMax, KCsr A => ret_vec VArr (row_maxs_csr (e_vmax e) (e_smax e) A)
  | RMax, KCsc A => ret_vec VArr (row_maxs_csc (e_vmax e) (e_smax e) t il sch srt A)
  | RMax, KCoo A => ret_vec VArr (row_maxs_coo (e_smax e) t (e_dist e) A)
  | RVar c, KCsr A => ret_vec VArr (row_vars_csr c A)
  | RVar c, KCsc A => ret_vec VArr (row_vars_csc t il sch srt c A)
  | RVar c, KCoo A => ret_vec VArr (row_vars_coo t (e_dist e) c A)
  | RStd c, KCsr A => ret_vec VArr (stds_of (row_vars_csr c A))
  | RStd c, KCsc A => ret_vec VArr (stds_of (row_vars_csc t il sch srt c A))
  | RStd c, KCoo A => ret_vec VArr (stds_of (row_vars_coo t (e_dist e) c A))
  | RAll, KCsr A => ret_vec VBools (row_alls_csr A)
  | RAll, KCsc A => ret_vec VBools (row_alls_csc il sch A)
  | RAll, KCoo A => ret_vec VBools (row_alls_coo e A)
  | RAny, KCsr A => ret_vec VBools (row_anys_csr A)
  | RAny, KCsc A => ret_vec VBools (row_anys_csc il sch A)
  | RAny, KCoo A => ret_vec VBools (row_anys_coo e A)
  | _, _ => Panic
  end.
(** One result per column: reduce.rs L192-L212, L238-L258, L328-L348, L374-L394, L465-L486,
    L513-L534, L666-L710, L807-L852, L945-L989, L1016-L1037, L1380-L1400, L1448-L1468,
    L1516-L1536, L1654-L1699, L1796-L1841, L1938-L1983. *)
Definition n_cols (op : rop) (x : core) : res (value F) :=
  let t := e_threads e in let il := e_il e 0 in let sch := e_sch e 0 in let srt := e_srt e 0 in
  match op, x with
  | RSum, KCsr A => ret_vec VArr (col_sums_csr t (e_dist e) (e_ilo e) A)
  | RProd, KCsr A => ret_vec VArr (col_prods_csr t il sch srt A)
  | RProd, KCsc A => ret_vec VArr (col_prods_csc A)
  | RProd, KCoo A => ret_vec VArr (col_prods_coo t (e_dist e) A)
  | RMin, KCsr A => ret_vec VArr (col_mins_csr (e_vmin e) (e_smin e) t il sch srt A)
  | RMin, KCsc A => ret_vec VArr (col_mins_csc (e_vmin e) (e_smin e) A)
  | RMin, KCoo A => ret_vec VArr (col_mins_coo (e_smin e) t (e_dist e) A)
  | RMax, KCsr A => ret_vec VArr (col_maxs_csr (e_vmax e) (e_smax e) t il sch srt A)
  | RMax, KCsc A => ret_vec VArr (col_maxs_csc (e_vmax e) (e_smax e) A)
  | RMax, KCoo A => ret_vec VArr (col_maxs_coo (e_smax e) t (e_dist e) A)
  | RVar c, KCsr A => ret_vec VArr (col_vars_csr t il sch srt c A)
  | RVar c, KCsc A => ret_vec VArr (col_vars_csc c A)
  | RVar c, KCoo A => ret_vec VArr (col_vars_coo t (e_dist e) c A)
  | RStd c, KCsr A => ret_vec VArr (stds_of (col_vars_csr t il sch srt c A))
  | RStd c, KCsc A => ret_vec VArr (stds_of (col_vars_csc c A))
  | RStd c, KCoo A => ret_vec VArr (stds_of (col_vars_coo t (e_dist e) c A))
  | RAll, KCsr A => ret_vec VBools (col_alls_csr t il sch srt A)
  | RAll, KCsc A => ret_vec VBools (col_alls_csc A)
  | RAll, KCoo A => ret_vec VBools (col_alls_coo e A)
  | RAny, KCsr A => ret_vec VBools (col_anys_csr t il sch srt A)
  | RAny, KCsc A => ret_vec VBools (col_anys_csc A)
  | RAny, KCoo A => ret_vec VBools (col_anys_coo e A)
  | _, _ => Panic
  end.

(** [cumsum_*], [cumprod_*]: reduce.rs L1119-L1332. The axis is tested before the arrays. *)
Definition n_cum (op : cop) (axis : Z) (x : core) : res (value F) :=
  let t := e_threads e in let il := e_il e 0 in let sch := e_sch e 0 in let srt := e_srt e 0 in
  assert! (axis =? 0) || (axis =? 1) ;;
  let f := match op with
           | CumSum => if axis =? 0 then cumsum_axis0 t il sch srt else cumsum_axis1
           | CumProd => if axis =? 0 then cumprod_axis0 t il sch srt else cumprod_axis1
           end in
  match x with
  | KCsr A => let! v := f A in arr_new VArr (reshape_to [csr_nrows A; csr_ncols A] v)
  | KCsc A => let! v := via_csc (e_il e 1) (e_sch e 1) f A in arr_new VArr (reshape_to [csc_nrows A; csc_ncols A] v)
  | KCoo A => let! v := via_coo (e_srt2 e) f A in arr_new VArr (reshape_to [coo_nrows A; coo_ncols A] v)
  | KNd _ => Panic
  end.

(** [diff_*]: manipulation.rs L56-L182. Any axis other than 0 means the last one. *)
Definition n_diff (n : nat) (axis : Z) (x : core) : res (value F) :=
  let t := e_threads e in
  match x with
  | KCsr A =>
      let! B := if axis =? 0 then diff_csr_axis0 t (e_il e 0) (e_sch e 0) (e_srt e 0) (e_sch e 1) (e_srt e 1) (e_sch e 2) (e_srt e 2) A n
                else diff_csr_axis1 (e_sch e 1) (e_srt e 1) A n in ret_csr B
  | KCsc A =>
      let! B := if axis =? 0 then diff_csc_axis0 (e_il e 1) (e_sch e 3) t (e_il e 0) (e_sch e 0) (e_srt e 0) (e_sch e 1) (e_srt e 1) (e_sch e 2) (e_srt e 2) (e_il e 2) (e_sch e 4) A n
                else diff_csc_axis1 (e_il e 1) (e_sch e 3) (e_sch e 1) (e_srt e 1) (e_il e 2) (e_sch e 4) A n in ret_csc B
  | KCoo A =>
      let! B := if axis =? 0 then diff_coo_axis0 (e_srt2 e) t (e_il e 0) (e_sch e 0) (e_srt e 0) (e_sch e 1) (e_srt e 1) (e_sch e 2) (e_srt e 2) (e_schc e) A n
                else diff_coo_axis1 (e_srt2 e) (e_sch e 1) (e_srt e 1) (e_schc e) A n in ret_coo B
  | KNd _ => Panic
  end.

(** ** N-D arrays. [coond_permute_axes]: manipulation.rs L20-L51; [coond_reshape]: L186-L217;
    [coond_reduce_{sum,mean}_axes]: reduce.rs L1084-L1115, L2027-L2057;
    [coond_mode_to_*] and [coond_axes_to_*]: utility.rs L236-L378. *)
Inductive ndop :=
| NdPermute (axes : list Z)
| NdReshape (shape : list Z)
| NdReduce (op : ndred) (axes : list Z)
| NdUnfold (f : fmt) (rows : list Z)
| NdMode (f : fmt) (mode : nat).
(** manipulation.rs L20-L51, L186-L217; reduce.rs L1084-L1115, L2027-L2057; utility.rs L236-L378 *)
Definition n_nd (op : ndop) (x : core) : res (value F) :=
  match x with
  | KNd A =>
      match op with
      | NdPermute axes => let! p := to_axes axes in let! B := permute_axes_coond A p in ret_nd B
      | NdReshape sh => assert! forallb (Z.leb 0) sh ;; let! B := reshape_coond (e_schz e 0) A sh in ret_nd B
      | NdReduce NSum axes => let! p := to_axes axes in let! B := reduce_sum_axes_coond (e_srt e 0) A p in ret_nd B
      | NdReduce NMean axes => let! p := to_axes axes in let! B := reduce_mean_axes_coond (e_srt e 0) A p in ret_nd B
      | NdUnfold FCsr rows => let! p := to_axes rows in let! B := coond_axes_to_csr (e_schu e) (e_srt2 e) A p in ret_csr B
      | NdUnfold FCsc rows => let! p := to_axes rows in let! B := coond_axes_to_csc (e_schu e) (e_srt2 e) A p in ret_csc B
      | NdMode FCsr m => let! B := coond_mode_to_csr (e_schu e) (e_srt2 e) A m in ret_csr B
      | NdMode FCsc m => let! B := coond_mode_to_csc (e_schu e) (e_srt2 e) A m in ret_csc B
      end
  | _ => Panic
  end.

(** ** Conversions: utility.rs L20-L233 *)
Inductive target := ToCsr | ToCsc | ToCoo.
(** utility.rs L20-L53, L56-L89, L92-L125, L128-L161, L164-L197, L200-L233 *)
Definition n_convert (t : target) (x : core) : res (value F) :=
  match x, t with
  | KCsr A, ToCsc => let! B := csr_to_csc (e_il e 0) (e_sch e 0) A in ret_csc B
  | KCsc A, ToCsr => let! B := csc_to_csr (e_il e 0) (e_sch e 0) A in ret_csr B
  | KCsr A, ToCoo => let! B := csr_to_coo (e_schc e) A in ret_coo B
  | KCsc A, ToCoo => let! B := csc_to_coo (e_schc e) A in ret_coo B
  | KCoo A, ToCsr => let! B := coo_to_csr (e_srt2 e) A in ret_csr B
  | KCoo A, ToCsc => let! B := coo_to_csc (e_srt2 e) A in ret_csc B
  | _, _ => Panic
  end.

(** ** All of them: lib.rs L54-L676 registers the functions under these names. *)
Inductive native :=
| NUnary (op : nuop) (x : raw)
| NScalar (op : sop) (x : raw) (alpha : F)
| NBinary (op : bop) (x y : raw)
| NSpmv (x : raw) (v : list F)
| NSpmm (x : raw) (r k : nat) (b : list F)
| NTensordot (x : raw) (axis : Z) (b : list F) (b_shape : list Z)
| NVecdot (x : raw) (axis : Z) (v : list F)
| NTotal (op : @rop F) (x : raw)
| NRows (op : @rop F) (x : raw)
| NCols (op : @rop F) (x : raw)
| NCum (op : cop) (x : raw) (axis : Z)
| NDiff (x : raw) (n : nat) (axis : Z)
| NNd (op : ndop) (x : raw)
| NConvert (t : target) (x : raw).
(** one call of such a function with its [check] argument, e.g. elementwise.rs L22-L69 *)
Definition native_call (check : bool) (f : native) : res (value F) :=
  match f with
  | NUnary op x => let! A := load x check in n_unary op A
  | NScalar op x alpha => let! A := load x check in n_scalar op A alpha
  | NBinary op x y => let! A := load x check in let! B := load y check in n_binary op A B
  | NSpmv x v => let! A := load x check in n_spmv A v
  | NSpmm x r k b => let! A := load x check in n_spmm A r k b
  | NTensordot x axis b sh => let! A := load x check in n_tensordot A axis b sh
  | NVecdot x axis v => let! A := load x check in n_vecdot A axis v
  | NTotal op x => let! A := load x check in n_total op A
  | NRows op x => let! A := load x check in n_rows op A
  | NCols op x => let! A := load x check in n_cols op A
  | NCum op x axis => let! A := load x check in n_cum op axis A
  | NDiff x n axis => let! A := load x check in n_diff n axis A
  | NNd op x => let! A := load x check in n_nd op A
  | NConvert t x => let! A := load x check in n_convert t A
  end.
End Native.
Arguments raw F : clear implicits.
Arguments core F : clear implicits.
Arguments native F : clear implicits.
