(** curves/params/{multiexp,wnaf}/*.hpp, extracted by tools/window_tables.py. *)
From Coq Require Import NArith List.
Import ListNotations.
Local Open Scope N_scope.

(** params/multiexp/alt_bn128.hpp:46-90 *)
Definition multiexp_alt_bn128_254_g1 : list N := [1; 5; 11; 32; 55; 162; 360; 815; 2373; 6978; 7122; 0; 57818; 0; 169679; 439759; 936073; 0; 4666555; 7580404; 0; 34552892].
(** params/multiexp/alt_bn128.hpp:96-140 *)
Definition multiexp_alt_bn128_254_g2 : list N := [1; 5; 10; 25; 59; 154; 334; 743; 2034; 4988; 8888; 26271; 39768; 106276; 141703; 462423; 926872; 0; 4873049; 5706708; 0; 31673815].
(** params/multiexp/bls12.hpp:46-90 *)
Definition multiexp_bls12_381_g1 : list N := [1; 5; 11; 32; 55; 162; 360; 815; 2373; 6978; 7122; 0; 57818; 0; 169679; 439759; 936073; 0; 4666555; 7580404; 0; 34552892].
(** params/multiexp/bls12.hpp:96-140 *)
Definition multiexp_bls12_381_g2 : list N := [1; 5; 10; 25; 59; 154; 334; 743; 2034; 4988; 8888; 26271; 39768; 106276; 141703; 462423; 926872; 0; 4873049; 5706708; 0; 31673815].
(** params/multiexp/bls12.hpp:148-192 *)
Definition multiexp_bls12_377_g1 : list N := [1; 5; 11; 32; 55; 162; 360; 815; 2373; 6978; 7122; 0; 57818; 0; 169679; 439759; 936073; 0; 4666555; 7580404; 0; 34552892].
(** params/multiexp/bls12.hpp:198-242 *)
Definition multiexp_bls12_377_g2 : list N := [1; 5; 10; 25; 59; 154; 334; 743; 2034; 4988; 8888; 26271; 39768; 106276; 141703; 462423; 926872; 0; 4873049; 5706708; 0; 31673815].
(** params/multiexp/bn128.hpp:46-90 *)
Definition multiexp_bn128_254_g1 : list N := [1; 4; 10; 25; 62; 158; 362; 807; 2090; 4460; 9280; 43303; 0; 0; 210999; 506869; 930023; 0; 0; 8350812; 21708139; 29482996].
(** params/multiexp/bn128.hpp:96-140 *)
Definition multiexp_bn128_254_g2 : list N := [1; 4; 11; 26; 61; 154; 353; 772; 2026; 4399; 10493; 37055; 49929; 114503; 161445; 470648; 1059822; 0; 5450848; 5566796; 0; 33055218].
(** params/multiexp/edwards.hpp:46-90 *)
Definition multiexp_edwards_183_g1 : list N := [1; 4; 10; 25; 60; 149; 370; 849; 1765; 4430; 13389; 15368; 74912; 0; 438107; 0; 1045626; 1577434; 0; 0; 17350594; 0].
(** params/multiexp/edwards.hpp:96-140 *)
Definition multiexp_edwards_183_g2 : list N := [1; 5; 11; 26; 61; 146; 357; 823; 1589; 4136; 14298; 16745; 51769; 99811; 193307; 0; 907185; 1389683; 0; 6752696; 193642895; 226760202].
(** params/multiexp/mnt4.hpp:46-90 *)
Definition multiexp_mnt4_298_g1 : list N := [1; 5; 10; 25; 60; 144; 345; 855; 1805; 3912; 11265; 27898; 57597; 145299; 157205; 601601; 1107377; 1789647; 4392627; 8221211; 0; 42363731].
(** params/multiexp/mnt4.hpp:96-140 *)
Definition multiexp_mnt4_298_g2 : list N := [1; 4; 10; 25; 60; 143; 345; 821; 1794; 3920; 11301; 18960; 44199; 0; 150800; 548695; 1051769; 2023926; 3787109; 7107480; 0; 38760027].
(** params/multiexp/mnt6.hpp:46-90 *)
Definition multiexp_mnt6_298_g1 : list N := [1; 4; 10; 25; 60; 146; 350; 845; 1840; 3904; 11309; 24016; 72289; 138413; 156390; 562560; 1036742; 2053819; 4370224; 8215704; 0; 42682375].
(** params/multiexp/mnt6.hpp:96-140 *)
Definition multiexp_mnt6_298_g2 : list N := [1; 4; 10; 25; 60; 144; 346; 819; 1782; 4002; 10870; 18023; 43161; 0; 149743; 551844; 1041828; 1977372; 3703620; 7057237; 0; 38554492].
(** params/wnaf/alt_bn128.hpp:46-46 *)
Definition wnaf_alt_bn128_254_g1 : list N := [11; 24; 60; 127].
(** params/wnaf/alt_bn128.hpp:52-52 *)
Definition wnaf_alt_bn128_254_g2 : list N := [5; 15; 39; 109].
(** params/wnaf/bls12.hpp:46-46 *)
Definition wnaf_bls12_381_g1 : list N := [11; 24; 60; 127].
(** params/wnaf/bls12.hpp:52-52 *)
Definition wnaf_bls12_381_g2 : list N := [5; 15; 39; 109].
(** params/wnaf/bls12.hpp:60-60 *)
Definition wnaf_bls12_377_g1 : list N := [11; 24; 60; 127].
(** params/wnaf/bls12.hpp:66-66 *)
Definition wnaf_bls12_377_g2 : list N := [5; 15; 39; 109].
(** params/wnaf/bn128.hpp:46-46 *)
Definition wnaf_bn128_254_g1 : list N := [10; 24; 40; 132].
(** params/wnaf/bn128.hpp:52-52 *)
Definition wnaf_bn128_254_g2 : list N := [7; 18; 35; 116].
(** params/wnaf/edwards.hpp:46-46 *)
Definition wnaf_edwards_183_g1 : list N := [9; 14; 24; 117].
(** params/wnaf/edwards.hpp:52-52 *)
Definition wnaf_edwards_183_g2 : list N := [6; 12; 42; 97].
(** params/wnaf/mnt4.hpp:46-46 *)
Definition wnaf_mnt4_298_g1 : list N := [11; 24; 60; 127].
(** params/wnaf/mnt4.hpp:52-52 *)
Definition wnaf_mnt4_298_g2 : list N := [5; 15; 39; 109].
(** params/wnaf/mnt6.hpp:46-46 *)
Definition wnaf_mnt6_298_g1 : list N := [11; 24; 60; 127].
(** params/wnaf/mnt6.hpp:52-52 *)
Definition wnaf_mnt6_298_g2 : list N := [5; 15; 39; 109].
(** curves/params/multiexp/<curve>.hpp: the tables above, each with its lines *)
Definition multiexp_tables : list (list N) := [multiexp_alt_bn128_254_g1; multiexp_alt_bn128_254_g2; multiexp_bls12_381_g1; multiexp_bls12_381_g2; multiexp_bls12_377_g1; multiexp_bls12_377_g2; multiexp_bn128_254_g1; multiexp_bn128_254_g2; multiexp_edwards_183_g1; multiexp_edwards_183_g2; multiexp_mnt4_298_g1; multiexp_mnt4_298_g2; multiexp_mnt6_298_g1; multiexp_mnt6_298_g2].
(** curves/params/wnaf/<curve>.hpp: the tables above, each with its lines *)
Definition wnaf_tables : list (list N) := [wnaf_alt_bn128_254_g1; wnaf_alt_bn128_254_g2; wnaf_bls12_381_g1; wnaf_bls12_381_g2; wnaf_bls12_377_g1; wnaf_bls12_377_g2; wnaf_bn128_254_g1; wnaf_bn128_254_g2; wnaf_edwards_183_g1; wnaf_edwards_183_g2; wnaf_mnt4_298_g1; wnaf_mnt4_298_g2; wnaf_mnt6_298_g1; wnaf_mnt6_298_g2].
