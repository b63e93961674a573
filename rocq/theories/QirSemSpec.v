(** What a program of QIR's base profile does: a machine with qubits, results and recorded outputs.  From the QIR
    specification (qir-alliance/qir-spec: base profile and its quantum instruction set), not from the code. *)
From Coq Require Import List String Bool Arith NArith Reals.
From Verif Require Import CRing Cplx KernelSpec SimSpec QirModel.
Import ListNotations.
Local Open Scope R_scope.
Local Open Scope string_scope.

(** ** Gates *)
(** The matrix with rows [a b] and [c d]. *)
Definition m2 (a b c d : C) : N -> N -> C :=
  fun i j => if (i =? 0)%N then (if (j =? 0)%N then a else b) else (if (j =? 0)%N then c else d).
(** A function of the instruction set with its parameters: whether the first qubit is a control, and the matrix. *)
Definition base_gate (f : string) (ps : list R) : option (bool * (N -> N -> C)) :=
  match ps with
  | [] =>
      if String.eqb f "__quantum__qis__x__body" then Some (false, m2 C0 C1 C1 C0)
      else if String.eqb f "__quantum__qis__y__body" then Some (false, m2 C0 (Copp Ci) Ci C0)
      else if String.eqb f "__quantum__qis__z__body" then Some (false, m2 C1 C0 C0 (Copp C1))
      else if String.eqb f "__quantum__qis__h__body" then
        Some (false, m2 (RtoC (1 / sqrt 2)) (RtoC (1 / sqrt 2)) (RtoC (1 / sqrt 2)) (RtoC (- (1 / sqrt 2))))
      else if String.eqb f "__quantum__qis__s__body" then Some (false, m2 C1 C0 C0 Ci)
      else if String.eqb f "__quantum__qis__t__body" then Some (false, m2 C1 C0 C0 (Cexp (PI / 4)))
      else if String.eqb f "__quantum__qis__cnot__body" then Some (true, m2 C0 C1 C1 C0)
      else if String.eqb f "__quantum__qis__cz__body" then Some (true, m2 C1 C0 C0 (Copp C1))
      else None
  | [a] =>
      if String.eqb f "__quantum__qis__rx__body" then
        Some (false, m2 (RtoC (cos (a / 2))) (Cmul (Copp Ci) (RtoC (sin (a / 2))))
                        (Cmul (Copp Ci) (RtoC (sin (a / 2)))) (RtoC (cos (a / 2))))
      else if String.eqb f "__quantum__qis__ry__body" then
        Some (false, m2 (RtoC (cos (a / 2))) (RtoC (- sin (a / 2))) (RtoC (sin (a / 2))) (RtoC (cos (a / 2))))
      else if String.eqb f "__quantum__qis__rz__body" then Some (false, m2 (Cexp (- (a / 2))) C0 C0 (Cexp (a / 2)))
      else None
  | _ => None
  end.
(** The gate changes the amplitudes [v] of [n] qubits to [w]. *)
Definition gate_does (n : N) (f : string) (ps : list R) (qs : list nat) (v w : N -> C) : Prop :=
  exists ctrl m, base_gate f ps = Some (ctrl, m) /\
    match ctrl, qs with
    | false, [t] => (N.of_nat t < n)%N /\ forall i, (i < 2 ^ n)%N -> w i = @op_apply Ccring false n m [N.of_nat t] [] v i
    | true, [c; t] => (N.of_nat c < n)%N /\ (N.of_nat t < n)%N /\ c <> t /\
        forall i, (i < 2 ^ n)%N -> w i = @op_apply Ccring false n m [N.of_nat t] [N.of_nat c] v i
    | _, _ => False
    end.

(** ** Programs *)
(** The amplitudes, the values of the results that have been measured, and the results recorded so far. *)
Record mach := mkMach { amp : N -> C; result : nat -> option bool; output : list (option bool) }.
(** All qubits 0, no results. *)
Definition ground : mach := mkMach (fun i => if (i =? 0)%N then C1 else C0) (fun _ => None) [].
Definition written (r : nat) (o : bool) (rs : nat -> option bool) : nat -> option bool :=
  fun k => if Nat.eqb k r then Some o else rs k.
(** After outcome [o] of qubit [q]: the other half of the amplitudes disappears, the rest is scaled. *)
Definition collapsed (n : N) (q : N) (o : bool) (v w : N -> C) : Prop :=
  forall i, (i < 2 ^ n)%N ->
    w i = if Bool.eqb (qbit false n i q) o then Cmul (RtoC (1 / sqrt (prob false n q o v))) (v i) else C0.

(** A run of the calls from one state of the machine to another, with the outcomes of the measurements in turn and the
    probability of just these outcomes. *)
Inductive qir_run (n : N) : list (call R) -> mach -> list bool -> R -> mach -> Prop :=
| qr_done v v' rs rs' out :
    (forall i, (i < 2 ^ n)%N -> v' i = v i) -> (forall r, rs' r = rs r) ->
    qir_run n [] (mkMach v rs out) [] 1 (mkMach v' rs' out)
| qr_init ks s os p s' :
    qir_run n ks s os p s' -> qir_run n (Call R "__quantum__rt__initialize" [] :: ks) s os p s'
| qr_gate f ps qs ks v v' rs out os p s' :
    gate_does n f ps qs v v' -> qir_run n ks (mkMach v' rs out) os p s' ->
    qir_run n (Call R f (map (CDouble R) ps ++ map (CQubit R) qs) :: ks) (mkMach v rs out) os p s'
| qr_mz q r o ks v v' rs out os p s' :
    (N.of_nat q < n)%N -> 0 < prob false n (N.of_nat q) o v -> collapsed n (N.of_nat q) o v v' ->
    qir_run n ks (mkMach v' (written r o rs) out) os p s' ->
    qir_run n (Call R "__quantum__qis__mz__body" [CQubit R q; CResult R r] :: ks) (mkMach v rs out) (o :: os)
      (prob false n (N.of_nat q) o v * p) s'
| qr_record r ks v rs out os p s' :
    qir_run n ks (mkMach v rs (out ++ [rs r])) os p s' ->
    qir_run n (Call R "__quantum__rt__result_record_output" [CResult R r] :: ks) (mkMach v rs out) os p s'.
