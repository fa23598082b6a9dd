(** Specifications for colors given by a model. *)
From Verif Require Import Str M_Length M_Spec M_Leaf S_Spec.

(** A hexadecimal digit in either case, by its value. *)
Definition hex_char (v : N) (c : N) : Prop :=
  nth_error (lit "0123456789abcdef") (N.to_nat v) = Some c \/ nth_error (lit "0123456789ABCDEF") (N.to_nat v) = Some c.

Definition blanks (s : str) : Prop := Forall (fun c => is_white_space c = true) s.

(** [number_text s m k]: [s] is, between blanks, an unsigned decimal number with the value [m / 10^k]. *)
Definition number_text (s : str) (m : N) (k : nat) : Prop :=
  exists b1 ip dot fp b2, s = b1 ++ decimal false ip dot fp ++ b2 /\ blanks b1 /\ blanks b2 /\
    all_digits ip /\ all_digits fp /\ (dot = false -> fp = []) /\ ip ++ fp <> [] /\
    digits_value (ip ++ fp) = m /\ length fp = k.

Definition pow10 (k : nat) : N := 10 ^ N.of_nat k.
(** The channel of a number between 0 and 255: the part before the point. *)
Definition byte_channel (m : N) (k : nat) : N := m / pow10 k.
(** The channel of a number between 0 and 1: 255 times the number, rounded half up. *)
Definition unit_channel (m : N) (k : nat) : N := (510 * m + pow10 k) / (2 * pow10 k).

(** A description that is not a color of the model but is read as one. *)
Definition not_hex (s : str) : Prop := exists c, In c s /\ forall v, ~ hex_char v c.


(** The names of the models; the command that selects a color of a model. *)
Definition color_models : list str := [lit "rgb"; lit "RGB"; lit "HTML"].
Definition color_command (model desc : str) : str := lit "\color [" ++ model ++ lit "]{" ++ desc ++ lit "}".
Definition color_name_command (name : str) : str := lit "\color {" ++ name ++ lit "}".
