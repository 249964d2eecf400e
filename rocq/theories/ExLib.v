(** * ExLib: helpers for the concrete examples beside the theorems. *)
From Verif Require Import Py Scalar Mat Utils Gates Circuit.

Definition forced {S} (r : res (circuit S)) : circuit S :=
  match r with
  | Ok c => c
  | Err _ => {| c_qregs := QList []; c_init := []; c_len := 0; c_dims := [];
                c_out := {| o_base := []; o_type := OutPrint; o_method := OutAmplitude |};
                c_flow := {| f_list := []; f_meas := [] |} |}
  end.
Lemma forced_ok : forall S (r : res (circuit S)), is_ok r = true -> r = Ok (forced r).
Proof. intros S [c|e] H; [reflexivity | discriminate]. Qed.
Definition flag {A B} (r : res (A * B)) : res B := match r with Ok (_, b) => Ok b | Err e => Err e end.

