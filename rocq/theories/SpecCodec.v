(** Specification of UTF-8 and UTF-16: what they are for a code point (Unicode, table 3-6 and 3-5). *)
From Verif Require Import Base.
Open Scope N_scope.

(** The code points that are characters. *)
Definition scalar (c : N) : Prop := c < 55296 \/ 57344 <= c < 1114112.
Inductive utf8_of : N -> list N -> Prop :=
| u8_1 c : c < 128 -> utf8_of c [c]
| u8_2 x y : x < 32 -> y < 64 -> 128 <= 64 * x + y -> utf8_of (64 * x + y) [192 + x; 128 + y]
| u8_3 x y z : x < 16 -> y < 64 -> z < 64 -> 2048 <= 4096 * x + 64 * y + z -> utf8_of (4096 * x + 64 * y + z) [224 + x; 128 + y; 128 + z]
| u8_4 w x y z : w < 8 -> x < 64 -> y < 64 -> z < 64 -> 65536 <= 262144 * w + 4096 * x + 64 * y + z ->
    utf8_of (262144 * w + 4096 * x + 64 * y + z) [240 + w; 128 + x; 128 + y; 128 + z].
Inductive utf16_of : N -> list N -> Prop :=
| u16_1 c : c < 65536 -> utf16_of c [c]
| u16_2 x y : x < 1024 -> y < 1024 -> utf16_of (65536 + 1024 * x + y) [55296 + x; 56320 + y].
(** A text of characters, and what it is in either. *)
Inductive encoded (of : N -> list N -> Prop) : list N -> list N -> Prop :=
| en_nil : encoded of [] []
| en_cons c cs u us : scalar c -> of c u -> encoded of cs us -> encoded of (c :: cs) (u ++ us).
(** It does not begin with a byte order mark. *)
Definition no_mark (cs : list N) : Prop := forall cs', cs <> 65279 :: cs'.
(** Any bytes at all, taken for UTF-8: characters as long as there are any; a byte that does not begin one is replaced by
    U+FFFD; a sequence that stops at the end of the bytes is left away. *)
Definition begins_character (bytes : list N) : Prop := exists c u rest, scalar c /\ utf8_of c u /\ bytes = u ++ rest.
Definition first_of (b : N) (n : nat) : Prop := (194 <= b < 224 /\ n = 2%nat) \/ (224 <= b < 240 /\ n = 3%nat) \/ (240 <= b < 245 /\ n = 4%nat).
Definition stops_short (bytes : list N) : Prop :=
  exists b n p, bytes = b :: p /\ first_of b n /\ (length bytes < n)%nat /\ Forall (fun x => 128 <= x < 192) p.
Inductive any_text : list N -> list N -> Prop :=
| at_end : any_text [] []
| at_short bytes : stops_short bytes -> any_text bytes []
| at_character c u v bytes text : scalar c -> utf8_of c u -> utf16_of c v -> any_text bytes text -> any_text (u ++ bytes) (v ++ text)
| at_wrong b bytes text : ~ begins_character (b :: bytes) -> ~ stops_short (b :: bytes) -> any_text bytes text -> any_text (b :: bytes) (65533 :: text).
