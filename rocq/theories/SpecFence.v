(** * What is asked of the operations of the back ends (C40): which order
    applies to their reads and writes. *)
From Coq Require Import List Bool.
Require Import Verif.Order Verif.Reorder Verif.SpecOrder Verif.FenceModel.

(** The accesses an operation consists of: loads and failed compare_exchanges
    read, stores write, the others do both. *)
Definition own (p : op) (k : kind) : Prop :=
  match p with
  | OLoad _ _ | OCas false _ _ _ => k = Rd
  | OStore _ _ | OClear _ _ => k = Wr
  | _ => True
  end.

(** The order the caller gave for the read, if the operation reads. *)
Definition read_order (p : op) : option morder :=
  match p with
  | OLoad _ o | OExchange _ o | OFetch _ _ o | OTestAndSet _ o => Some o
  | OCas true _ so _ => Some so
  | OCas false _ _ fo => Some fo
  | OStore _ _ | OClear _ _ => None
  end.

(** The order the caller gave for the write, if the operation writes. *)
Definition write_order (p : op) : option morder :=
  match p with
  | OStore _ o | OClear _ o | OExchange _ o | OFetch _ _ o | OTestAndSet _ o => Some o
  | OCas true _ so _ => Some so
  | OLoad _ _ | OCas false _ _ _ => None
  end.

(** All of the operation is seq_cst. *)
Definition seq_cst_operation (p : op) : Prop :=
  (read_order p = None \/ read_order p = Some SeqCst) /\
  (write_order p = None \/ write_order p = Some SeqCst).

(** The orders are such as the library's assertions accept. *)
Definition accepted (p : op) : Prop :=
  match p with OCas _ _ so fo => cas_orders_accepted so fo = true | _ => True end.

(** The operations whose acquire is not implemented (C40_*_refuted has an
    execution for each):
    - SPARC: all acquires but seq_cst ones;
    - 8-byte loads on 32-bit Arm version 8;
    - failed compare_exchanges on Arm version 8 when the failure order is
      acquire but the success order is release;
    - failed compare_exchanges with the Linux kernel's help on old Arm. *)
Definition acquire_exception (b : backend) (p : op) : Prop :=
  match b, p with
  | Sparc, _ => read_order p <> Some SeqCst
  | Aarch32Wide, OLoad _ _ => True
  | (Aarch32 | Aarch32Wide | Aarch64 _ | Aarch64Wide), OCas false _ so _ => ~ acquiring so
  | LinuxArm, OCas false _ _ _ => True
  | _, _ => False
  end.
