(* Options as the user builds them: ConnectOptions::new followed by calls of the setters. *)
From Verif Require Import Base Prims Props Codes Packets SpecCodec Options.

Inductive setting :=
| SetClientId (x : bytes)
| SetKeepAlive (d : N)      (* nanoseconds *)
| SetCleanStart (b : bool)
| SetUsername (x : bytes)
| SetPassword (x : bytes)
| SetSessionExpiry (n : N)
| SetWill (w : will)
| SetReceiveMax (n : N)
| SetMaxPacket (n : N)
| SetSendMax (n : N).
(* the setter called, connect_options.rs L144-237; a refused call changes nothing *)
Definition apply_setting (o : options) (x : setting) : options :=
  match x with
  | SetClientId x => set_client_id x o
  | SetKeepAlive d => set_keep_alive_interval d o
  | SetCleanStart b => set_clean_start b o
  | SetUsername x => set_username x o
  | SetPassword x => set_password x o
  | SetSessionExpiry n => set_session_expiry_interval n o
  | SetWill w => set_last_will w o
  | SetReceiveMax n => set_receive_maximum n o
  | SetMaxPacket n => match set_maximum_packet_size n o with Some o => o | None => o end
  | SetSendMax n => set_send_maximum n o
  end.
Definition configure (id : bytes) (l : list setting) : options := fold_left apply_setting l (new_options id).

(* the last value given *)
Fixpoint last_set {A} (f : setting -> option A) (l : list setting) : option A :=
  match l with
  | [] => None
  | x :: l => match last_set f l with Some a => Some a | None => f x end
  end.
Definition get {A} (f : setting -> option A) (d : A) (l : list setting) : A := match last_set f l with Some a => a | None => d end.
Definition for_client x := match x with SetClientId a => Some a | _ => None end.
Definition for_keep x := match x with SetKeepAlive a => Some a | _ => None end.
Definition for_clean x := match x with SetCleanStart a => Some a | _ => None end.
Definition for_user x := match x with SetUsername a => Some a | _ => None end.
Definition for_password x := match x with SetPassword a => Some a | _ => None end.
Definition for_expiry x := match x with SetSessionExpiry a => Some a | _ => None end.
Definition for_will x := match x with SetWill a => Some a | _ => None end.
Definition for_receive x := match x with SetReceiveMax a => Some a | _ => None end.
Definition for_send x := match x with SetSendMax a => Some a | _ => None end.
(* only values up to 268435455 are taken *)
Definition for_packet x := match x with SetMaxPacket a => if a <=? 268435455 then Some a else None | _ => None end.

(* the arguments are in the range of their types; texts and the will can be encoded *)
Definition setting_ok (x : setting) : Prop :=
  match x with
  | SetClientId x | SetUsername x | SetPassword x => str_ok x
  | SetKeepAlive _ | SetCleanStart _ => True
  | SetSessionExpiry n | SetMaxPacket n => n < 4294967296
  | SetWill w => will_ok w
  | SetReceiveMax n | SetSendMax n => n < 65536
  end.

(* what CONNECT is to say; whole seconds of keep-alive, 60 if not set *)
Definition says (id : bytes) (l : list setting) (c : connect) : Prop :=
  cn_client_id c = get for_client id l /\
  cn_clean_start c = get for_clean true l /\
  cn_username c = last_set for_user l /\
  cn_password c = last_set for_password l /\
  cn_will c = last_set for_will l /\
  cn_keep_alive c = get for_keep 60000000000 l / 1000000000 /\
  forall t, prop_vals t (cn_props c) =
    match t with
    | SessionExpiryInterval => map V32 (opt_list (last_set for_expiry l))
    | ReceiveMaximum => map V16 (opt_list (last_set for_receive l))
    | MaximumPacketSize => map V32 (opt_list (last_set for_packet l))
    | _ => []
    end.
