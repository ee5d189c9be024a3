(** Generated primality certificates (Pocklington with partial factorisations;
    trial division below 10^6).   *)
From Coq Require Import ZArith Znumtheory List.
From Verif Require Import Proof.Pocklington.
Import ListNotations.
Local Open Scope Z_scope.

(** fields/x962_p/base_field.hpp:65 *)
Lemma pr_2 : prime 2.
Proof. apply small_prime_sound. vm_cast_no_check (eq_refl true). Qed.
Lemma pr_3 : prime 3.
Proof. apply small_prime_sound. vm_cast_no_check (eq_refl true). Qed.
Lemma pr_8413201 : prime 8413201.
Proof.
  apply (pock_check_sound _ [(2,4,7); (3,3,5)] 32).
  - vm_cast_no_check (eq_refl true).
  - refine (Forall_cons (2,4,7) pr_2 (Forall_cons (3,3,5) pr_3 (Forall_nil _))).
Qed.
Lemma pr28_52396031 : prime 252396031.
Proof.
  apply (pock_check_sound _ [(8413201,1,2)] 0).
  - vm_cast_no_check (eq_refl true).
  - refine (Forall_cons (8413201,1,2) pr_8413201 (Forall_nil _)).
Qed.
Lemma pr39_27231987 : prime 455827231987.
Proof.
  apply (pock_check_sound _ [(252396031,1,2)] 0).
  - vm_cast_no_check (eq_refl true).
  - refine (Forall_cons (252396031,1,2) pr28_52396031 (Forall_nil _)).
Qed.
Lemma pr63_31140283 : prime 5933177618131140283.
Proof.
  apply (pock_check_sound _ [(455827231987,1,2)] 0).
  - vm_cast_no_check (eq_refl true).
  - refine (Forall_cons (455827231987,1,2) pr39_27231987 (Forall_nil _)).
Qed.
Lemma pr88_48032903 : prime 288626509448065367648032903.
Proof.
  apply (pock_check_sound _ [(5933177618131140283,1,2)] 0).
  - vm_cast_no_check (eq_refl true).
  - refine (Forall_cons (5933177618131140283,1,2) pr63_31140283 (Forall_nil _)).
Qed.
Lemma prime_x962_p_v2_base_field_192 : prime 6277101735386680763835789423207666416083908700390324961279.
Proof.
  apply (pock_check_sound _ [(288626509448065367648032903,1,2)] 174089999748711380351147575).
  - vm_cast_no_check (eq_refl true).
  - refine (Forall_cons (288626509448065367648032903,1,2) pr88_48032903 (Forall_nil _)).
Qed.
(** fields/x962_p/base_field.hpp:91 *)
Lemma prime_x962_p_v3_base_field_192 : prime 6277101735386680763835789423207666416083908700390324961279.
Proof. exact prime_x962_p_v2_base_field_192. Qed.
(** fields/x962_p/base_field.hpp:117 *)
Lemma pr_103067 : prime 103067.
Proof. apply small_prime_sound. vm_cast_no_check (eq_refl true). Qed.
Lemma pr_11337371 : prime 11337371.
Proof.
  apply (pock_check_sound _ [(103067,1,2)] 0).
  - vm_cast_no_check (eq_refl true).
  - refine (Forall_cons (103067,1,2) pr_103067 (Forall_nil _)).
Qed.
Lemma pr28_36048453 : prime 136048453.
Proof.
  apply (pock_check_sound _ [(11337371,1,2)] 0).
  - vm_cast_no_check (eq_refl true).
  - refine (Forall_cons (11337371,1,2) pr_11337371 (Forall_nil _)).
Qed.
Lemma pr51_75947683 : prime 1182641175947683.
Proof.
  apply (pock_check_sound _ [(136048453,1,2)] 0).
  - vm_cast_no_check (eq_refl true).
  - refine (Forall_cons (136048453,1,2) pr28_36048453 (Forall_nil _)).
Qed.
Lemma pr126_18848887 : prime 55763131333926718655616290956918848887.
Proof.
  apply (pock_check_sound _ [(1182641175947683,1,2)] 235064085041719).
  - vm_cast_no_check (eq_refl true).
  - refine (Forall_cons (1182641175947683,1,2) pr51_75947683 (Forall_nil _)).
Qed.
Lemma pr147_49647441 : prime 98317092117472876196090194911962760849647441.
Proof.
  apply (pock_check_sound _ [(55763131333926718655616290956918848887,1,2)] 0).
  - vm_cast_no_check (eq_refl true).
  - refine (Forall_cons (55763131333926718655616290956918848887,1,2) pr126_18848887 (Forall_nil _)).
Qed.
Lemma prime_x962_p_v1_base_field_239 : prime 883423532389192164791648750360308885314476597252960362792450860609699839.
Proof.
  apply (pock_check_sound _ [(98317092117472876196090194911962760849647441,1,2)] 0).
  - vm_cast_no_check (eq_refl true).
  - refine (Forall_cons (98317092117472876196090194911962760849647441,1,2) pr147_49647441 (Forall_nil _)).
Qed.
(** fields/x962_p/base_field.hpp:143 *)
Lemma prime_x962_p_v2_base_field_239 : prime 883423532389192164791648750360308885314476597252960362792450860609699839.
Proof. exact prime_x962_p_v1_base_field_239. Qed.
(** fields/x962_p/base_field.hpp:169 *)
Lemma prime_x962_p_v3_base_field_239 : prime 883423532389192164791648750360308885314476597252960362792450860609699839.
Proof. exact prime_x962_p_v1_base_field_239. Qed.
(** fields/x962_p/scalar_field.hpp:65 *)
Lemma pr_691 : prime 691.
Proof. apply small_prime_sound. vm_cast_no_check (eq_refl true). Qed.
Lemma pr_809 : prime 809.
Proof. apply small_prime_sound. vm_cast_no_check (eq_refl true). Qed.
Lemma pr_1990141 : prime 1990141.
Proof.
  apply (pock_check_sound _ [(809,1,2)] 32).
  - vm_cast_no_check (eq_refl true).
  - refine (Forall_cons (809,1,2) pr_809 (Forall_nil _)).
Qed.
Lemma pr56_29570011 : prime 65802469029570011.
Proof.
  apply (pock_check_sound _ [(1990141,1,2)] 22034).
  - vm_cast_no_check (eq_refl true).
  - refine (Forall_cons (1990141,1,2) pr_1990141 (Forall_nil _)).
Qed.
Lemma prime_x962_p_v2_scalar_field_192 : prime 6277101735386680763835789423078825936192100537584385056049.
Proof.
  apply (pock_check_sound _ [(691,1,2); (65802469029570011,1,2)] 2496365404791107283).
  - vm_cast_no_check (eq_refl true).
  - refine (Forall_cons (691,1,2) pr_691 (Forall_cons (65802469029570011,1,2) pr56_29570011 (Forall_nil _))).
Qed.
(** fields/x962_p/scalar_field.hpp:91 *)
Lemma pr_20903 : prime 20903.
Proof. apply small_prime_sound. vm_cast_no_check (eq_refl true). Qed.
Lemma pr43_79506123 : prime 4634679506123.
Proof.
  apply (pock_check_sound _ [(20903,1,2)] 5048).
  - vm_cast_no_check (eq_refl true).
  - refine (Forall_cons (20903,1,2) pr_20903 (Forall_nil _)).
Qed.
Lemma pr64_3288541 : prime 13241186655403288541.
Proof.
  apply (pock_check_sound _ [(4634679506123,1,2)] 0).
  - vm_cast_no_check (eq_refl true).
  - refine (Forall_cons (4634679506123,1,2) pr43_79506123 (Forall_nil _)).
Qed.
Lemma pr95_38317461 : prime 22461091923965074692738317461.
Proof.
  apply (pock_check_sound _ [(13241186655403288541,1,2)] 0).
  - vm_cast_no_check (eq_refl true).
  - refine (Forall_cons (13241186655403288541,1,2) pr64_3288541 (Forall_nil _)).
Qed.
Lemma pr157_97747831 : prime 101727983247231691623468830291577301936397747831.
Proof.
  apply (pock_check_sound _ [(22461091923965074692738317461,1,2)] 0).
  - vm_cast_no_check (eq_refl true).
  - refine (Forall_cons (22461091923965074692738317461,1,2) pr95_38317461 (Forall_nil _)).
Qed.
Lemma prime_x962_p_v3_scalar_field_192 : prime 6277101735386680763835789423166314882687165660350679936019.
Proof.
  apply (pock_check_sound _ [(101727983247231691623468830291577301936397747831,1,2)] 0).
  - vm_cast_no_check (eq_refl true).
  - refine (Forall_cons (101727983247231691623468830291577301936397747831,1,2) pr157_97747831 (Forall_nil _)).
Qed.
(** fields/x962_p/scalar_field.hpp:117 *)
Lemma pr_31 : prime 31.
Proof. apply small_prime_sound. vm_cast_no_check (eq_refl true). Qed.
Lemma pr_569 : prime 569.
Proof. apply small_prime_sound. vm_cast_no_check (eq_refl true). Qed.
Lemma pr_22621 : prime 22621.
Proof. apply small_prime_sound. vm_cast_no_check (eq_refl true). Qed.
Lemma pr_114883 : prime 114883.
Proof. apply small_prime_sound. vm_cast_no_check (eq_refl true). Qed.
Lemma pr_8329 : prime 8329.
Proof. apply small_prime_sound. vm_cast_no_check (eq_refl true). Qed.
Lemma pr34_61788797 : prime 11361788797.
Proof.
  apply (pock_check_sound _ [(8329,1,2)] 6496).
  - vm_cast_no_check (eq_refl true).
  - refine (Forall_cons (8329,1,2) pr_8329 (Forall_nil _)).
Qed.
Lemma prime_x962_p_v1_scalar_field_239 : prime 883423532389192164791648750360308884807550341691627752275345424702807307.
Proof.
  apply (pock_check_sound _ [(3,2,2); (31,1,2); (569,1,2); (22621,1,2); (114883,1,2); (11361788797,1,2)] 1415023734014327935123383).
  - vm_cast_no_check (eq_refl true).
  - refine (Forall_cons (3,2,2) pr_3 (Forall_cons (31,1,2) pr_31 (Forall_cons (569,1,2) pr_569 (Forall_cons (22621,1,2) pr_22621 (Forall_cons (114883,1,2) pr_114883 (Forall_cons (11361788797,1,2) pr34_61788797 (Forall_nil _))))))).
Qed.
(** fields/x962_p/scalar_field.hpp:143 *)
Lemma pr_35759 : prime 35759.
Proof. apply small_prime_sound. vm_cast_no_check (eq_refl true). Qed.
Lemma pr_7151801 : prime 7151801.
Proof.
  apply (pock_check_sound _ [(35759,1,2)] 0).
  - vm_cast_no_check (eq_refl true).
  - refine (Forall_cons (35759,1,2) pr_35759 (Forall_nil _)).
Qed.
Lemma pr65_25016633 : prime 29310368781325016633.
Proof.
  apply (pock_check_sound _ [(7151801,1,2)] 1851384).
  - vm_cast_no_check (eq_refl true).
  - refine (Forall_cons (7151801,1,2) pr_7151801 (Forall_nil _)).
Qed.
Lemma pr128_25729469 : prime 285580268831646064607071292303425729469.
Proof.
  apply (pock_check_sound _ [(29310368781325016633,1,2)] 0).
  - vm_cast_no_check (eq_refl true).
  - refine (Forall_cons (29310368781325016633,1,2) pr65_25016633 (Forall_nil _)).
Qed.
Lemma prime_x962_p_v2_scalar_field_239 : prime 883423532389192164791648750360308886392687657546993855147765732451295331.
Proof.
  apply (pock_check_sound _ [(285580268831646064607071292303425729469,1,2)] 0).
  - vm_cast_no_check (eq_refl true).
  - refine (Forall_cons (285580268831646064607071292303425729469,1,2) pr128_25729469 (Forall_nil _)).
Qed.
(** fields/x962_p/scalar_field.hpp:169 *)
Lemma pr_11159 : prime 11159.
Proof. apply small_prime_sound. vm_cast_no_check (eq_refl true). Qed.
Lemma pr_90599 : prime 90599.
Proof. apply small_prime_sound. vm_cast_no_check (eq_refl true). Qed.
Lemma pr64_13210257 : prime 10121838188813210257.
Proof.
  apply (pock_check_sound _ [(11159,1,2); (90599,1,2)] 912818246).
  - vm_cast_no_check (eq_refl true).
  - refine (Forall_cons (11159,1,2) pr_11159 (Forall_cons (90599,1,2) pr_90599 (Forall_nil _))).
Qed.
Lemma pr69_34092337 : prime 485848233063034092337.
Proof.
  apply (pock_check_sound _ [(10121838188813210257,1,2)] 0).
  - vm_cast_no_check (eq_refl true).
  - refine (Forall_cons (10121838188813210257,1,2) pr64_13210257 (Forall_nil _)).
Qed.
Lemma pr96_89900229 : prime 50533193267855043324289900229.
Proof.
  apply (pock_check_sound _ [(485848233063034092337,1,2)] 0).
  - vm_cast_no_check (eq_refl true).
  - refine (Forall_cons (485848233063034092337,1,2) pr69_34092337 (Forall_nil _)).
Qed.
Lemma pr110_14786101 : prime 1056143739298170405477658914786101.
Proof.
  apply (pock_check_sound _ [(50533193267855043324289900229,1,2)] 0).
  - vm_cast_no_check (eq_refl true).
  - refine (Forall_cons (50533193267855043324289900229,1,2) pr96_89900229 (Forall_nil _)).
Qed.
Lemma prime_x962_p_v3_scalar_field_239 : prime 883423532389192164791648750360308884771190369765922550517967171058034001.
Proof.
  apply (pock_check_sound _ [(1056143739298170405477658914786101,1,2)] 897533772698670320801393652572504).
  - vm_cast_no_check (eq_refl true).
  - refine (Forall_cons (1056143739298170405477658914786101,1,2) pr110_14786101 (Forall_nil _)).
Qed.
