(** What the test suite of the project asks for, /repo/tests: pytest.raises with a text, and the text
    captured by capsys. No proofs here. *)
From Coq Require Import Reals String.
From Verif Require Import Base MetricModel BatchModel PrintModel MessageModel.
Local Open Scope nat_scope.

(** [pytest.raises(e, match=re.escape(pat))]: the text occurs somewhere in the message. *)
Definition found (pat t : string) : Prop := exists a b, t = (a ++ pat ++ b)%string.
Definition raises {A} (m : said A) (e : exn) (pat : string) : Prop :=
  exists t, m = Fail e (Some t) /\ found pat t.

(** [capsys.readouterr().out] *)
Definition newline : string := String (Ascii.ascii_of_nat 10) "".
Definition captured (es : list effect) : string :=
  String.concat "" (map (fun e => match e with Printed l => (l ++ newline)%string | Warned _ _ => ""%string end) es).

(** The text python gives for the float next to k / 100: one decimal if the second is 0. *)
Definition hundredths (k : nat) : string :=
  (show (k / 100) ++ "." ++ (if (k mod 10 =? 0)%nat then show (k mod 100 / 10) else pad 2 (k mod 100)))%string.
(** A text for numbers that does this up to 10^15 hundredths and says inf. *)
Definition python_text (str_num : ext -> string) : Prop :=
  (forall k, (Z.of_nat k < 10 ^ 15)%Z -> str_num (Fin (INR k / 100)) = hundredths k) /\ str_num PInf = "inf"%string.
