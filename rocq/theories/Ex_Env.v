(** A concrete environment for the non-vacuity examples (a stand-in for protobuf). *)
From Verif Require Import Prelude Types.

Definition ex_env : Env := {|
  esize := fun e => N.of_nat (String.length (e_data e)) + 2;
  enc_cc := fun _ => "1"%string;
  enc_ccv2 := fun _ => "2"%string;
  dec_cc := fun _ => None;
  dec_ccv2 := fun _ => None
|}.
(** The same, where any encoded membership change decodes (to "add node 4"). *)
Definition ex_env_cc : Env := {|
  esize := fun e => N.of_nat (String.length (e_data e)) + 2;
  enc_cc := fun _ => "1"%string;
  enc_ccv2 := fun _ => "2"%string;
  dec_cc := fun _ => Some (mkConfChange CcAddNode 4 EmptyString 0);
  dec_ccv2 := fun _ => Some (mkConfChangeV2 TrAuto [mkCC CcAddNode 4] EmptyString)
|}.
