(** * Property C79: reading cmlh5 files *)
From Coq Require Import List ZArith Bool String.
From Flocq Require Import BinarySingleNaN.
From Verif Require Import Base Num NumF64 NumList Libm Libm64 Haversine_model Validator_model Validator_spec Io_model Io_spec Io_proofs.
Import ListNotations.
Local Open Scope nat_scope.
Local Notation length := List.length.

Theorem C79_every_link_and_channel : forall (O : numops) (S : numsem O) (L : libm O) (as_ns : O -> Z) (fh : list (string * link_group O)),
  fh <> [] -> (forall e, In e fh -> link_ok as_ns (snd e)) ->
  exists dss, read_cmlh5_file_to_xarray L as_ns fh = Ok dss /\
  Forall2 (fun e ds => holds L as_ns (snd e) ds /\
    ((exists a, Forall (fun c => axis as_ns (snd c) = a) (g_channels (snd e)) /\ d_time ds = a) \/
     (~ (exists a, Forall (fun c => axis as_ns (snd c) = a) (g_channels (snd e))) /\ ascending (d_time ds)))) fh dss.
Proof. exact @read_correct. Qed.
Print Assumptions C79_every_link_and_channel.

Theorem C79_empty_file : forall (O : numops) (L : libm O) (as_ns : O -> Z), read_cmlh5_file_to_xarray L as_ns [] = Err IndexError.
Proof. exact @read_empty. Qed.
Print Assumptions C79_empty_file.

Theorem C79_bad_link : forall (O : numops) (S : numsem O) (L : libm O) (as_ns : O -> Z) (good rest : list (string * link_group O)) bad,
  (forall e, In e good -> link_ok as_ns (snd e)) -> bad_link as_ns (snd bad) ->
  read_cmlh5_file_to_xarray L as_ns (good ++ bad :: rest) = Err ValueError.
Proof. exact @read_bad_link. Qed.
Print Assumptions C79_bad_link.

Theorem C79_ok_or_bad : forall (O : numops) (as_ns : O -> Z) (k : link_group O), link_ok as_ns k \/ bad_link as_ns k.
Proof. exact @link_ok_or_bad. Qed.
Print Assumptions C79_ok_or_bad.

Definition trunc (x : F64) : Z := Btrunc x.
Definition chan (tx rx time : list F64) f p : channel_group F64 := Build_channel_group tx rx time f p.
Definition lnk cs : link_group F64 := Build_link_group "cml"%string #48 #49 #10 #11 cs.
(** two links; the second has two channels with different time axes and frequencies *)
Example C79_case :
  let a := chan [#1; #2] [#3; #4] [#7; #5] #2000000000 "v"%string in
  let b := chan [#5; #6] [#7; #8] [#5; #6] #3000000000 "v"%string in
  match read_cmlh5_file_to_xarray F64demo trunc [("x", lnk [("c", a)]); ("y", lnk [("c", a); ("d", b)])]%string with
  | Ok [d1; d2] =>
      z_list_eqb (d_time d1) [7000000000; 5000000000] && f_same_list (get [] (d_tsl d1) 0) [#1; #2] &&
      z_list_eqb (d_time d2) [5000000000; 6000000000; 7000000000] &&
      f_same_list (get [] (d_tsl d2) 0) [#2; fNaN; #1] && f_same_list (get [] (d_rsl d2) 1) [#7; #8; fNaN] &&
      match d_frequency d2 with CPer [f; g] => f_same_list [f; g] [#2; #3] | _ => false end &&
      match d_polarization d2 with CScalar p => String.eqb p "v"%string | _ => false end
  | _ => false
  end%Z = true.
Proof. vm_compute. reflexivity. Qed.
(** equal axes may repeat a time, different ones may not *)
Example C79_case_duplicates :
  let a := chan [#1; #2] [#3; #4] [#5; #5] #2000000000 "v"%string in
  let b := chan [#5; #6] [#7; #8] [#5; #6] #3000000000 "v"%string in
  match read_cmlh5_file_to_xarray F64demo trunc [("x", lnk [("c", a); ("d", a)])]%string with Ok _ => true | _ => false end = true /\
  match read_cmlh5_file_to_xarray F64demo trunc [("x", lnk [("c", a); ("d", b)])]%string with Err ValueError => true | _ => false end = true.
Proof. vm_compute. auto. Qed.
