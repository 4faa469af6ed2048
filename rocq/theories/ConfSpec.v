(* What the configuration means, independently of how it is loaded *)
From Coq Require Import String Ascii.
From Verif Require Import Base ObjModel ConfModel.
Open Scope string_scope.

(* The last value which a file gives to the key *)
Definition sets (file : list assignment) (g k v : string) : Prop :=
  exists pre post, file = (pre ++ (g, k, v) :: post)%list /\ forall v', ~ In (g, k, v') post.

(* The files in the directory which count *)
Definition override_file (dir : list dirent) (name : string) (a : list assignment) : Prop :=
  In (name, true, Some a) dir /\ exists base, name = base ++ ".conf".

(* What the files say: the override file with the greatest name wins, then comes the
   main file *)
Definition explicit (file : option (list assignment)) (dir : list dirent) (g k v : string) : Prop :=
  (exists name a, override_file dir name a /\ sets a g k v /\
     forall name' a' v', override_file dir name' a' -> sets a' g k v' -> String.leb name' name = true) \/
  ((forall name a v', override_file dir name a -> ~ sets a g k v') /\
   exists a, file = Some a /\ sets a g k v).

Definition api_level (to_int : string -> Z) file dir (n : Z) : Prop :=
  (exists v, explicit file dir "General" "ApiLevel" v /\ n = to_int v) \/
  ((forall v, ~ explicit file dir "General" "ApiLevel" v) /\ n = 0%Z).

(* The settings which an API level implies. Below 28 there are none. *)
Definition implied (level : Z) (g k v : string) : Prop :=
  (k = "/dev/binder" \/ k = "/dev/vndbinder") /\
  ((g = "ServiceManager" /\
    ((28 <= level <= 29)%Z /\ v = "aidl2" \/ level = 30%Z /\ v = "aidl3" \/ (31 <= level)%Z /\ v = "aidl4")) \/
   (g = "Protocol" /\
    (level = 29%Z /\ v = "aidl2" \/ (30 <= level)%Z /\ v = "aidl3"))).

(* An explicit setting always wins *)
Definition effective (to_int : string -> Z) file dir (g k v : string) : Prop :=
  explicit file dir g k v \/
  ((forall v', ~ explicit file dir g k v') /\
   exists n, api_level to_int file dir n /\ implied n g k v).

Definition config_value (kf : option keyfile) (g k : string) : option string :=
  match kf with Some f => kf_get f g k | None => None end.

(* The choice for a device: what is configured for it, then what's built in, then
   the configured default, then the built-in default. A value which isn't known is
   the same as none. *)
Definition chosen {A} (known : string -> A -> Prop) (value : string -> option string)
  (builtin : list (string * A)) (default : A) (dev : string) (a : A) : Prop :=
  let configured d x := exists v, value d = Some v /\ known v x in
  configured dev a \/
  ((forall x, ~ configured dev x) /\
   (In (dev, a) builtin \/
    ((forall x, ~ In (dev, x) builtin) /\
     (configured "Default" a \/ ((forall x, ~ configured "Default" x) /\ a = default))))).

Definition protocol_name (p : protocol) : string :=
  match p with Aidl => "aidl" | Aidl2 => "aidl2" | Aidl3 => "aidl3" | Hidl => "hidl" end.
Definition sm_name (t : sm_kind) : string :=
  match t with
  | SmAidl => "aidl" | SmAidl2 => "aidl2" | SmAidl3 => "aidl3" | SmAidl4 => "aidl4"
  | SmHidl => "hidl"
  end.

(* The same letter, or the same character which isn't a letter *)
Definition same_letter (a b : ascii) : Prop :=
  a = b \/ exists i x y,
    String.get i "ABCDEFGHIJKLMNOPQRSTUVWXYZ" = Some x /\ String.get i "abcdefghijklmnopqrstuvwxyz" = Some y /\
    ((a = x /\ b = y) \/ (a = y /\ b = x)).
(* Names of protocols are case insensitive, names of service managers are not *)
Definition protocol_known (v : string) (p : protocol) : Prop :=
  Forall2 same_letter (list_ascii_of_string v) (list_ascii_of_string (protocol_name p)).
Definition sm_known (v : string) (t : sm_kind) : Prop := v = sm_name t.

(* The answers to a sequence of questions *)
Fixpoint protocol_lookups (kf : option keyfile) (st : choice protocol) (devs : list (option string))
  : list protocol :=
  match devs with
  | [] => []
  | d :: r =>
    let (p, st1) := protocol_for_device kf st d in p :: protocol_lookups kf st1 r
  end.

Fixpoint sm_lookups (kf : option keyfile) (st : choice sm_kind) (qs : list (string * option string))
  : list (option sm_kind) :=
  match qs with
  | [] => []
  | (d, name) :: r =>
    let (t, st1) := sm_choose kf st d name in t :: sm_lookups kf st1 r
  end.
