(** Property theorems C09-C11: numbers in text. *)
From Verif Require Import PyBase CastepRes NumSpec SpecLine PyVal TypeConv NumFacts NumVal NumProps.
Local Open Scope list_scope.
Local Open Scope nat_scope.

(** C09.  On a line of separated numbers, [get_numbers] returns exactly them. *)
Theorem C09_get_numbers ns line : number_line ns line -> get_numbers line = map write_num ns.
Proof. exact (get_numbers_line ns line). Qed.
Print Assumptions C09_get_numbers.

Definition ex_n1 := {| n_sign := NoSign; n_int := [d1]; n_frac := Some [d5]; n_exp := None |}.
Definition ex_n2 := {| n_sign := Minus; n_int := []; n_frac := Some [d2; d5]; n_exp := Some (true, Minus, [d0; d3]) |}.
Definition ex_n3 := {| n_sign := NoSign; n_int := [d7]; n_frac := None; n_exp := None |}.
Lemma free_of_dec cs s : forallb (fun c => negb (chr_in c (list_ascii_of_string cs))) s = true -> free_of cs s.
Proof.
  intros H c Hc Ha. rewrite forallb_forall in H. specialize (H c Hc).
  apply negb_true_iff, not_true_iff_false in H. apply H. unfold chr_in. apply existsb_exists.
  exists c. split; [exact Ha|apply Ascii.eqb_refl].
Qed.
Lemma not_last_free cs s : free_of cs s -> not_last cs s.
Proof. intros H t c ->. apply H. apply in_or_app; right; now left. Qed.
Lemma not_first_free cs s : free_of cs s -> not_first cs s.
Proof. intros H c t ->. apply H. now left. Qed.
Example C09_ex : number_line [ex_n1; ex_n2; ex_n3] ($"a =  1.5-.25E-03 x 7").
Proof.
  change ($"a =  1.5-.25E-03 x 7") with
    ($"a =  " ++ write_num ex_n1 ++ ([] ++ write_num ex_n2 ++ ($" x " ++ write_num ex_n3 ++ []))).
  assert (F : forall cs s, forallb (fun c => negb (chr_in c (list_ascii_of_string cs))) s = true ->
    free_of cs s /\ not_first cs s /\ not_last cs s)
    by (intros; repeat split; auto using free_of_dec, not_first_free, not_last_free).
  apply line_some; [now apply F|now apply F|cbn; repeat split; discriminate|].
  apply tail_more; [now apply F|now apply F|now apply F|right; discriminate|cbn; repeat split; try discriminate; auto with arith|].
  apply tail_more; [now apply F|now apply F|now apply F|left; discriminate|cbn; repeat split; discriminate|].
  apply tail_end; now apply F.
Qed.

(** C10.  Whatever the line, the strings returned are number tokens that occur in
    the line in order, without overlap... *)
Theorem C10_get_numbers_sound line :
  exists parts, occurs_in_order parts line /\ Forall num_ok (map snd parts) /\
    get_numbers line = map (fun x => write_num (snd x)) parts.
Proof.
  destruct (get_numbers_sound line) as (parts & rest & H1 & H2 & H3).
  exists parts. split; [exists rest; exact H1|]. auto.
Qed.
Print Assumptions C10_get_numbers_sound.

(** ...and converting one to float gives the number it denotes, or raises
    OverflowError exactly when that number is too large for a float. *)
Theorem C10_get_numbers_convert line s : In s (get_numbers line) ->
  exists n, num_ok n /\ s = write_num n /\
    ((fits (num_value n) /\ to_type TFloat (VStr s) = Ok (VFloat (FQ (Qred (num_value n))))) \/
     (~ fits (num_value n) /\ to_type TFloat (VStr s) = Err OverflowError)).
Proof. exact (get_numbers_convert line s). Qed.
Print Assumptions C10_get_numbers_convert.

(** "Never raises" is false: an exponent of three digits can overflow. *)
Theorem C10_no_exception_refuted : exists line s,
  In s (get_numbers line) /\ to_type TFloat (VStr s) = Err OverflowError.
Proof. exists ($"1e400"), ($"1e400"). split; [left; vm_compute; reflexivity|vm_compute; reflexivity]. Qed.
Print Assumptions C10_no_exception_refuted.

Example C10_ex : get_numbers ($"0.1-100 and 1e2345x.5") =
  [$"0.1"; $"-100"; $"1e234"; $"5"; $".5"].
Proof. vm_compute. reflexivity. Qed.

(** C11.  Text denoting a number converts to it; otherwise the exception says why. *)
Theorem C11_float_value s q : denotes s q -> fits q ->
  to_type TFloat (VStr s) = Ok (VFloat (FQ (Qred q))).
Proof. exact (float_value s q). Qed.
Print Assumptions C11_float_value.
Theorem C11_float_overflow s q : denotes s q -> ~ fits q -> to_type TFloat (VStr s) = Err OverflowError.
Proof. exact (float_overflow s q). Qed.
Print Assumptions C11_float_overflow.
Theorem C11_float_zero_division s : to_type TFloat (VStr s) = Err ZeroDivisionError <->
  exists a r b, blanks a /\ blanks b /\ ratio_ok r /\ decimal (r_den r) = 0%Z /\ s = a ++ write_ratio r ++ b.
Proof. exact (float_zero s). Qed.
Print Assumptions C11_float_zero_division.
Theorem C11_float_rejects s : to_type TFloat (VStr s) = Err ValueError <->
  ~ (exists q, denotes s q) /\
  ~ (exists a r b, blanks a /\ blanks b /\ ratio_ok r /\ decimal (r_den r) = 0%Z /\ s = a ++ write_ratio r ++ b).
Proof. exact (float_rejects s). Qed.
Print Assumptions C11_float_rejects.

(** Integers: exactly the integer literals are accepted, with their value. *)
Theorem C11_int_accepts s z : to_type TInt (VStr s) = Ok (VInt z) <->
  exists a n b, blanks a /\ blanks b /\ num_wf n /\ is_int n /\ s = a ++ write_num n ++ b /\ int_value n = z.
Proof. exact (int_accepts s z). Qed.
Print Assumptions C11_int_accepts.
Theorem C11_int_rejects s : (forall z, to_type TInt (VStr s) <> Ok (VInt z)) ->
  to_type TInt (VStr s) = Err ValueError.
Proof. exact (int_else s). Qed.
Print Assumptions C11_int_rejects.

Example C11_ex1 : denotes ($"  -.25E-03 ") (num_value ex_n2) /\ fits (num_value ex_n2) /\
  to_type TFloat (VStr ($"  -.25E-03 ")) = Ok (VFloat (FQ (-1 # 4000))).
Proof.
  split; [|split].
  - change ($"  -.25E-03 ") with ($"  " ++ write_num ex_n2 ++ $" ").
    constructor; try (apply blanks_iff; reflexivity). repeat split; discriminate.
  - split; vm_compute; reflexivity.
  - vm_compute. reflexivity.
Qed.
Example C11_ex2 : to_type TFloat (VStr ($"-3/6")) = Ok (VFloat (FQ (-1 # 2))) /\
  to_type TFloat (VStr ($"3/0")) = Err ZeroDivisionError /\
  to_type TFloat (VStr ($"3 /4")) = Err ValueError /\
  to_type TInt (VStr ($" -042 ")) = Ok (VInt (-42)).
Proof. vm_compute. auto. Qed.
