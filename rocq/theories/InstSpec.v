(* What a user of service managers relies on: the words in which the theorems of InstProps are
   stated. *)
From Verif Require Import Base.
From Verif Require Export InstModel.

(* The application has references to the manager *)
Definition has (s : state) (i : nat) (x : inst) : Prop := nth_error (insts s) i = Some x /\ i_held x > 0.

(* The manager is of this kind, for this device, and uses this protocol *)
Definition is_for (x : inst) (k : kind) (dev : name) (p : Z) : Prop :=
  i_kind x = k /\ i_dev x = dev /\ i_proto x = p /\ i_freed x = false.

(* The protocol which a request asks for: the one it names, if there is such a protocol, otherwise
   the configured one of the device *)
Definition asked_protocol (cfg : config) (dev : name) (rpc : option name) : Z :=
  match rpc with
  | None => for_device cfg dev
  | Some n => match by_name cfg n with None => for_device cfg dev | Some p => p end
  end.

(* No longer to be found by anybody *)
Definition gone (x : inst) : bool :=
  i_freed x || match i_phase x with Removed => true | _ => false end.

(* Kinds which are derived from "aidl" *)
Definition derived (k : kind) : bool := match k with Aidl2 | Aidl3 | Aidl4 => true | Aidl | Hidl => false end.

(* What the application has to avoid:
   - an empty name of the device;
   - the very first use of "aidl2", "aidl3" or "aidl4" while there is an "aidl" manager, for any
     device;
   - another protocol for the kind and the device of an existing manager;
   - releasing a manager while another thread is between the two checks of g_object_unref. *)
Definition careful (cfg : config) (s : state) (mv : move) : bool :=
  match mv with
  | MNew k dev rpc _ =>
    match dev with [] => false | _ => true end &&
    match class_of s k, derived k with
    | None, true => match class_of s Aidl with Some (Class (Some _)) => false | _ => true end
    | _, _ => true
    end &&
    forallb (fun x => gone x || negb (kind_eqb (i_kind x) k) || negb (name_eqb (i_dev x) dev) ||
                      (i_proto x =? asked_protocol cfg dev rpc)) (insts s)
  | MUnref i =>
    match nth_error (insts s) i with
    | Some x => match i_phase x with Left_ => false | _ => true end
    | None => true
    end
  | _ => true
  end.

Inductive reach (cfg : config) : state -> Prop :=
| reach_init : reach cfg init
| reach_step s mv s1 : reach cfg s -> careful cfg s mv = true -> step cfg s mv = Ok s1 -> reach cfg s1.

(* A release with nobody coming between its parts *)
Definition release (i : nat) : list move := [MUnref i; MDispose i; MUnrefEnd i].
