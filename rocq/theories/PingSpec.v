(* Vocabulary of the property about pings *)
From Verif Require Import Base ObjModel ObjReader KernelModel WholeModel.

(* "android.hidl.base@1.0::IBase", the interface which every HIDL object has *)
Definition base_name : bytes :=
  [97; 110; 100; 114; 111; 105; 100; 46; 104; 105; 100; 108; 46; 98; 97; 115; 101; 64;
   49; 46; 48; 58; 58; 73; 66; 97; 115; 101].

(* Pings, as Android defines them: "_PNG" without data, and in the style of HIDL the number 0x0f and "PNG", which
   belongs to the interface which every object has. It's not a one-way call *)
Definition is_ping (pr : protocol) (x : incoming) : Prop :=
  in_flags x = 0 /\
  match pr with
  | Hidl => in_code x = 0x0f504e47 /\ in_iface x = Some base_name
  | _ => in_code x = 0x5f504e47 /\ in_iface x = None /\ m_data (in_data x) = []
  end.
