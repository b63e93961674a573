(** Model of the gate matrices in dwave/gate/operations/operations.py and of ControlledOperation.matrix in
    dwave/gate/operations/base.py, in exact arithmetic over the complex numbers. *)
From Coq Require Import List ZArith NArith Bool Reals.
From Verif Require Import Py CRing Cplx SimModel UnitaryModel.
Import ListNotations.
Local Open Scope R_scope.

Notation cmat := (N -> N -> C).

(** A matrix literal. *)
Definition lit (rows : list (list C)) : cmat :=
  fun i j => nth (N.to_nat j) (nth (N.to_nat i) rows []) C0.

(** One-qubit gates with their parameters. *)
Inductive gate1 :=
| GIdentity | GX | GY | GZ | GHadamard | GS | GT
| GRX (theta : R) | GRY (theta : R) | GRZ (theta : R)
| GRotation (beta gamma delta : R).

Definition Cscale (a : R) (z : C) : C := Cmul (RtoC a) z.

(** The matrix properties (operations.py:102-106, 133-137, 164-168, 196-200, 227-231, 258-262, 293-297,
    333-341, 372-380, 411-419, 461-475). *)
Definition matrix1 (g : gate1) : cmat :=
  match g with
  | GIdentity => lit [[C1; C0]; [C0; C1]]
  | GX => lit [[C0; C1]; [C1; C0]]
  | GY => lit [[C0; Copp Ci]; [Ci; C0]]
  | GZ => lit [[C1; C0]; [C0; Copp C1]]
  | GHadamard => fun i j => Cscale (sqrt 2 / 2) (lit [[C1; C1]; [C1; Copp C1]] i j)
  | GS => lit [[C1; C0]; [C0; Ci]]
  | GT => lit [[C1; C0]; [C0; Cexp (PI / 4)]]
  | GRX theta =>
      let d0 := RtoC (cos (theta / 2)) in
      let d1 := Cmul (Copp Ci) (RtoC (sin (theta / 2))) in
      lit [[d0; d1]; [d1; d0]]
  | GRY theta =>
      let d0 := RtoC (cos (theta / 2)) in
      let d1 := RtoC (sin (theta / 2)) in
      lit [[d0; Copp d1]; [d1; d0]]
  | GRZ theta => lit [[Cexp (- theta / 2); C0]; [C0; Cexp (theta / 2)]]
  | GRotation beta gamma delta =>
      let mcos := RtoC (cos (gamma / 2)) in
      let msin := RtoC (sin (gamma / 2)) in
      let t0 := Cmul (Cexp (- (1 / 2) * (beta + delta))) mcos in
      let t1 := Cmul (Copp (Cexp (1 / 2 * (beta - delta)))) msin in
      let t2 := Cmul (Cexp (- (1 / 2) * (beta - delta))) msin in
      let t3 := Cmul (Cexp (1 / 2 * (beta + delta))) mcos in
      lit [[t0; t1]; [t2; t3]]
  end.

(** Whether the gate's class is a ParametricOperation. *)
Definition parametric1 (g : gate1) : bool :=
  match g with GRX _ | GRY _ | GRZ _ | GRotation _ _ _ => true | _ => false end.

(** 0/1 matrices *)
Definition lit01 (rows : list (list N)) : cmat :=
  fun i j => match nth (N.to_nat j) (nth (N.to_nat i) rows []) 0%N with 0%N => C0 | _ => C1 end.

(** operations.py:756-766 *)
Definition swap_matrix : cmat := lit01
  [[1; 0; 0; 0];
   [0; 0; 1; 0];
   [0; 1; 0; 0];
   [0; 0; 0; 1]]%N.
(** operations.py:804-818 *)
Definition cswap_matrix : cmat := lit01
  [[1; 0; 0; 0; 0; 0; 0; 0];
   [0; 1; 0; 0; 0; 0; 0; 0];
   [0; 0; 1; 0; 0; 0; 0; 0];
   [0; 0; 0; 1; 0; 0; 0; 0];
   [0; 0; 0; 0; 1; 0; 0; 0];
   [0; 0; 0; 0; 0; 0; 1; 0];
   [0; 0; 0; 0; 0; 1; 0; 0];
   [0; 0; 0; 0; 0; 0; 0; 1]]%N.
(** operations.py:852-866 *)
Definition ccx_matrix : cmat := lit01
  [[1; 0; 0; 0; 0; 0; 0; 0];
   [0; 1; 0; 0; 0; 0; 0; 0];
   [0; 0; 1; 0; 0; 0; 0; 0];
   [0; 0; 0; 1; 0; 0; 0; 0];
   [0; 0; 0; 0; 1; 0; 0; 0];
   [0; 0; 0; 0; 0; 1; 0; 0];
   [0; 0; 0; 0; 0; 0; 0; 1];
   [0; 0; 0; 0; 0; 0; 1; 0]]%N.

(** Where the attribute is read: on the class, or on an instance with its [control] and [target]. *)
Inductive access := OnClass | OnInstance (control target : option (list nat)).

Definition truthy {A} (o : option (list A)) : bool := match o with Some (_ :: _) => true | _ => false end.

Definition zrange (a b : nat) : list Z := map Z.of_nat (seq a (b - a)).

(** ControlledOperation.matrix (base.py:543-568) and, when [par], ParametricControlledOperation.matrix
    (base.py:642-650), which is [None] on the class and first constructs the target operation without
    qubits, a TypeError inside a context (base.py:192-193).  [nc], [nt] are the class attributes
    [_num_control], [_num_target]; [dim], [u] the matrix of the target operation; [ctx] the qubits of the
    circuit of the active context. *)
Definition controlled_matrix (par : bool) (nc nt : nat) (dim : N) (u : cmat) (ctx : option (list nat))
    (a : access) : res (option (Z * cmat)) :=
  if par && match a with OnClass => true | _ => false end then Ok None else
  if par && match ctx with Some _ => true | None => false end then Err TypeError else
  let? idx :=
    match ctx, a with
    | None, _ => Ok (zrange 0 nc, zrange nc (nc + nt))
    | Some _, OnClass => Err AttributeError                    (* None has no attribute control *)
    | Some qs, OnInstance c t =>
        if truthy c && truthy t then
          let? ci := indices qs match c with Some l => l | None => [] end in
          let? ti := indices qs match t with Some l => l | None => [] end in
          Ok (ci, ti)
        else Ok (zrange 0 nc, zrange nc (nc + nt))
    end in
  let? r := build_controlled_unitary Ccring (fst idx) (snd idx) dim u (Some (Z.of_nat (nc + nt))) in
  Ok (Some r).

(** The gates of the library; [GC g] is the controlled version of [g] (CX, CY, CZ, CHadamard, CRX, CRY, CRZ,
    CRotation: operations.py:483-719, all with one control and one target). *)
Inductive gate := GOne (g : gate1) | GC (g : gate1) | GSWAP | GCSWAP | GCCX.

(** The matrix of an instance outside of any context, with its dimension. *)
Definition gate_matrix (g : gate) : res (N * cmat) :=
  match g with
  | GOne g => Ok (2%N, matrix1 g)
  | GC g =>
      let? o := controlled_matrix (parametric1 g) 1 1 2 (matrix1 g) None (OnInstance None None) in
      match o with
      | Some (n, m) => Ok (Z.to_N (2 ^ n), m)
      | None => Err TypeError
      end
  | GSWAP => Ok (4%N, swap_matrix)
  | GCSWAP => Ok (8%N, cswap_matrix)
  | GCCX => Ok (8%N, ccx_matrix)
  end.

(** What the simulator sees of a gate (simulator.pyx:44-130): the class decides the branch. *)
Definition gate_kind (g : gate) : kind Ccring :=
  match g with
  | GOne g => KOther Ccring 1 (matrix1 g)
  | GC g => KControlled Ccring 1 2 (matrix1 g)
  | GSWAP => KSwap Ccring
  | GCSWAP => KCSwap Ccring
  | GCCX => KCCX Ccring
  end.

(** The listed decompositions, first step first: [_decomposition] of Z (operations.py:180) and Rotation (434,
    with the parameters of its [_qasm_decl], 435-437), [_qasm_decl] of SWAP (730) and CSWAP (778).  Each step
    names the gate and, by number, the operands it takes from the decomposed gate. *)
Definition decomposition (g : gate) : option (list (gate * list nat)) :=
  match g with
  | GOne GZ => Some [(GOne GHadamard, [0]); (GOne GX, [0]); (GOne GHadamard, [0])]%nat
  | GOne (GRotation beta gamma delta) =>
      Some [(GOne (GRZ beta), [0]); (GOne (GRY gamma), [0]); (GOne (GRZ delta), [0])]%nat
  | GSWAP => Some [(GC GX, [1; 0]); (GC GX, [0; 1]); (GC GX, [1; 0])]%nat
  | GCSWAP => Some [(GC GX, [2; 1]); (GCCX, [0; 1; 2]); (GC GX, [2; 1])]%nat
  | _ => None
  end.
