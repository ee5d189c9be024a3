(** Certificates with elliptic curves: the scalar field modulus of secp521r1.  Curves with
    complex multiplication were used to find the number of points. *)
From Coq Require Import ZArith List Znumtheory.
From Verif Require Import Proof.Pocklington Proof.Ecpp.
Import ListNotations.
Local Open Scope Z_scope.

Lemma ec_557 : prime 557.
Proof. apply small_prime_sound. vm_cast_no_check (eq_refl true). Qed.
Lemma ec_821 : prime 821.
Proof. apply small_prime_sound. vm_cast_no_check (eq_refl true). Qed.
Lemma ec32_28477317 : prime 4128477317.
Proof.
  apply (pock_check_sound _ [(557,1,2); (821,1,2)] 0).
  - vm_cast_no_check (eq_refl true).
  - exact (Forall_cons (557,1,2) ec_557 (Forall_cons (821,1,2) ec_821 (Forall_nil _))).
Qed.
Lemma ec_89 : prime 89.
Proof. apply small_prime_sound. vm_cast_no_check (eq_refl true). Qed.
Lemma ec_239 : prime 239.
Proof. apply small_prime_sound. vm_cast_no_check (eq_refl true). Qed.
Lemma ec28_02925341 : prime 202925341.
Proof.
  apply (pock_check_sound _ [(89,1,2); (239,1,2)] 0).
  - vm_cast_no_check (eq_refl true).
  - exact (Forall_cons (89,1,2) ec_89 (Forall_cons (239,1,2) ec_239 (Forall_nil _))).
Qed.
Lemma ec48_62966529 : prime 193145962966529.
Proof.
  apply (pock_check_sound _ [(202925341,1,2)] 0).
  - vm_cast_no_check (eq_refl true).
  - exact (Forall_cons (202925341,1,2) ec28_02925341 (Forall_nil _)).
Qed.
Lemma ec112_95493331 : prime 3869285470298652544153063395493331.
Proof.
  apply (pock_check_sound _ [(4128477317,1,2); (193145962966529,1,2)] 0).
  - vm_cast_no_check (eq_refl true).
  - exact (Forall_cons (4128477317,1,2) ec32_28477317 (Forall_cons (193145962966529,1,2) ec48_62966529 (Forall_nil _))).
Qed.
Lemma ec148_23288019 : prime 209069420173717018150756502274441208323288019.
Proof.
  apply (pock_check_sound _ [(3869285470298652544153063395493331,1,2)] 0).
  - vm_cast_no_check (eq_refl true).
  - exact (Forall_cons (3869285470298652544153063395493331,1,2) ec112_95493331 (Forall_nil _)).
Qed.
Lemma ec259_86471387 : prime 782751651643904133516842230486370192986950784050061784865183649448974186471387.
Proof.
  apply (ecpp_sound 782751651643904133516842230486370192986950784050061784865183649448974186471387 0 1629
    569923038018469064735384740942859793345923718158168034308311208207668497459635
    92604267736079827105458586406499827771090758997566520261131373799688113120291
    258596206557845695177198207523141402463341760870728004736912771915760507131136
    209069420173717018150756502274441208323288019).
  - vm_cast_no_check (eq_refl true).
  - exact ec148_23288019.
Qed.
Lemma ec294_02733507 : prime 26396455358464290861024406425856767383597184798714873393172974232410680875129956702733507.
Proof.
  apply (ecpp_sound 26396455358464290861024406425856767383597184798714873393172974232410680875129956702733507 0 1932
    4430797402303667710010265879517212426550153000328460831920447929523146267696535292178127
    12997070741280400251362985648802747007499220181573404930412987555631960321233744484653385
    1025864591380851065969346885139325450852123249898396206622956552773178242891211380884645
    782751651643904133516842230486370192986950784050061784865183649448974186471387).
  - vm_cast_no_check (eq_refl true).
  - exact ec259_86471387.
Qed.
Lemma ec319_21531371 : prime 719872067355939322180934123892229143542768119917212289942415688934391953959091449323468121531371.
Proof.
  apply (ecpp_sound 719872067355939322180934123892229143542768119917212289942415688934391953959091449323468121531371 0 647
    299914887055238618315067374706051106523577340750685528710673608276393711099023480904213926243596
    502364623293178846890051242955480978405926255167480653592424346220425364329775043804507874545182
    427857982089945879613968737586707026943819925739195869951142833807294966113540689490847387484682
    26396455358464290861024406425856767383597184798714873393172974232410680875129956702733507).
  - vm_cast_no_check (eq_refl true).
  - exact ec294_02733507.
Qed.
Lemma ec336_76881727 : prime 85078080280461688791953699432203101329602050252415760415303637991055214905752024042387402916476881727.
Proof.
  apply (ecpp_sound 85078080280461688791953699432203101329602050252415760415303637991055214905752024042387402916476881727 35672812881974659864529751524448795733747798436077851305860152478624264505936841249683771909314605754 26202154594724750165982029880789823415053692656588156268906129696688619061882812599325248387851509294
    69811940102704827836935565951873430903136649636002773913198898303273816288042778875908091682696249084
    42480038290760679281440135411600388862622074726640719797814845404697180331077850987195795642835861081
    34722214993835510065516646403785075486866534484565548472890602709904628110691171303800148483250660408
    719872067355939322180934123892229143542768119917212289942415688934391953959091449323468121531371).
  - vm_cast_no_check (eq_refl true).
  - exact ec319_21531371.
Qed.
Lemma ec361_81304511 : prime 3636410625392624440351547907325502812950802686368714273274221490761556277859337865760708490235892541081304511.
Proof.
  apply (ecpp_sound 3636410625392624440351547907325502812950802686368714273274221490761556277859337865760708490235892541081304511 1675237374318464860549373952569013791749963647142967068322586043632035583176231146383325468306739612063331274 3394143308098403710546991543990477303219070454246431764563959226644305762669204116274589369669450803094181487
    1966203759874615043474758688081208509068397869718763218424715825171229287521652297929429903464421063417720534
    795443931250951830682655235975390125393786876792738227629208299861850032235775290176429132310845182943705420
    723710165725566040623451818966141935382211466713321063893717939860348902547171817526103723231021002080214981
    85078080280461688791953699432203101329602050252415760415303637991055214905752024042387402916476881727).
  - vm_cast_no_check (eq_refl true).
  - exact ec336_76881727.
Qed.
Lemma ec391 : prime 3615194794881930010216942559103847593050265703173292383701371712350878926821661243755933835426896058418509759880171943.
Proof.
  apply (pock_check_sound _ [(3636410625392624440351547907325502812950802686368714273274221490761556277859337865760708490235892541081304511,1,2)] 0).
  - vm_cast_no_check (eq_refl true).
  - exact (Forall_cons (3636410625392624440351547907325502812950802686368714273274221490761556277859337865760708490235892541081304511,1,2) ec361_81304511 (Forall_nil _)).
Qed.
Lemma prime_secp_r1_scalar_field_521 : prime 6864797660130609714981900799081393217269435300143305409394463459185543183397655394245057746333217197532963996371363321113864768612440380340372808892707005449.
Proof.
  apply (pock_check_sound _ [(3615194794881930010216942559103847593050265703173292383701371712350878926821661243755933835426896058418509759880171943,1,2)] 0).
  - vm_cast_no_check (eq_refl true).
  - exact (Forall_cons (3615194794881930010216942559103847593050265703173292383701371712350878926821661243755933835426896058418509759880171943,1,2) ec391 (Forall_nil _)).
Qed.
