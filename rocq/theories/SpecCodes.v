(* MQTT 5 numbers: reason codes and packet types.  Nothing here refers to the model's tables. *)
From Verif Require Import Base Prims Props Codes Packets SpecCodec.

(* the codes of each packet type: 3.2.2.2, 3.4.2.1, 3.5.2.1, 3.6.2.1, 3.7.2.1, 3.9.3, 3.11.3, 3.14.2.1, 3.15.2.1 *)
Definition spec_codes (t : pkt_type) : list N :=
  match t with
  | TConnAck => [0x00; 0x80; 0x81; 0x82; 0x83; 0x84; 0x85; 0x86; 0x87; 0x88; 0x89; 0x8A; 0x8C; 0x90; 0x95; 0x97;
                 0x99; 0x9A; 0x9B; 0x9C; 0x9D; 0x9F]
  | TPubAck | TPubRec => [0x00; 0x10; 0x80; 0x83; 0x87; 0x90; 0x91; 0x97; 0x99]
  | TPubRel | TPubComp => [0x00; 0x92]
  | TSubAck => [0x00; 0x01; 0x02; 0x80; 0x83; 0x87; 0x8F; 0x91; 0x97; 0x9E; 0xA1; 0xA2]
  | TUnsubAck => [0x00; 0x11; 0x80; 0x83; 0x87; 0x8F; 0x91]
  | TDisconnect => [0x00; 0x04; 0x80; 0x81; 0x82; 0x83; 0x87; 0x89; 0x8B; 0x8D; 0x8E; 0x8F; 0x90; 0x93; 0x94; 0x95;
                    0x96; 0x97; 0x98; 0x99; 0x9A; 0x9B; 0x9C; 0x9D; 0x9E; 0x9F; 0xA0; 0xA1; 0xA2]
  | TAuth => [0x00; 0x18; 0x19]
  | _ => []
  end.

(* A packet body with first byte [first] that has the byte [c] where packets of type [t] have a reason code *)
Inductive carries_code : pkt_type -> N -> N -> bytes -> Prop :=
| CcConnAck f c post : f < 256 -> carries_code TConnAck c 32 ([f; c] ++ post)
| CcPubAck i c post : i < 65536 -> carries_code TPubAck c 64 (spec_u16 i ++ [c] ++ post)
| CcPubRec i c post : i < 65536 -> carries_code TPubRec c 80 (spec_u16 i ++ [c] ++ post)
| CcPubRel i c post : i < 65536 -> carries_code TPubRel c 98 (spec_u16 i ++ [c] ++ post)
| CcPubComp i c post : i < 65536 -> carries_code TPubComp c 112 (spec_u16 i ++ [c] ++ post)
| CcSubAck i p sec cs c post : i < 65536 -> props_ok suback_cfg p -> spec_section_of p sec ->
    carries_code TSubAck c 144 (spec_u16 i ++ sec ++ cs ++ [c] ++ post)
| CcUnsubAck i p sec cs c post : i < 65536 -> props_ok unsuback_cfg p -> spec_section_of p sec ->
    carries_code TUnsubAck c 176 (spec_u16 i ++ sec ++ cs ++ [c] ++ post)
| CcDisconnect c post : carries_code TDisconnect c 224 ([c] ++ post)
| CcAuth c post : carries_code TAuth c 240 ([c] ++ post).

(* MQTT 5, 2.1.2, table 2-1 *)
Definition spec_type (n : N) : option pkt_type :=
  match n with
  | 1 => Some TConnect | 2 => Some TConnAck | 3 => Some TPublish | 4 => Some TPubAck | 5 => Some TPubRec
  | 6 => Some TPubRel | 7 => Some TPubComp | 8 => Some TSubscribe | 9 => Some TSubAck | 10 => Some TUnsubscribe
  | 11 => Some TUnsubAck | 12 => Some TPingReq | 13 => Some TPingResp | 14 => Some TDisconnect | 15 => Some TAuth
  | _ => None
  end.
