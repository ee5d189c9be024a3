(** The constants of A/fields/arithmetic_params/*.hpp (generated by
    tools/arith_params.py).

    A field that a header does not ship is None.  The headers of bn128, edwards and
    dsa_jce are templates over Version with the same literals for every Version;
    they are instantiated at the one Version that has a field (254, 183, 1024).
    ed25519.hpp ships one member and is the definition
    ed25519_multiplicative_generator. *)
From Coq Require Import ZArith List.
From Verif Require Import Model.FieldParams.
Import ListNotations.
Local Open Scope Z_scope.

(** arithmetic_params<F> of a prime field; every member is a literal of the header
    except a_p, the modulus inherited from params<F> (fields/params.hpp:37-52) *)
Record arith := { a_p : Z; a_s : Z; a_t : option Z; a_tm1h : option Z;
  a_arith : Z; a_geom : Z; a_mult : Z; a_root : Z; a_nqr : option Z; a_nqr_to_t : option Z;
  a_R2 : option Z; a_R3 : option Z; a_order : option Z; a_half : option Z }.
(** arithmetic_params<fp2<F>> and arithmetic_params<fp3<F>>; x_n is the degree *)
(** fields/arithmetic_params/{alt_bn128,bls12,mnt4,mnt6,edwards}.hpp, the specialisations cited at each value below *)
Record ext_arith := { x_p : Z; x_n : Z; x_s : Z; x_t : Z; x_tm1h : Z;
  x_nqr : list Z; x_nqr_to_t : list Z; x_order : option Z; x_half : option Z }.
(** arithmetic_params of the DSA groups: mul_generator and group_order *)
(** fields/arithmetic_params/dsa_jce.hpp, cited at each value below *)
Record dl_group := { d_p : Z; d_g : Z; d_q : Z }.

(* fields/arithmetic_params/alt_bn128.hpp:43-73 *)
Definition alt_bn128_base_field_254_arith : arith := {|
  a_p := alt_bn128_base_field_254_modulus; a_s := 0x01;
  a_t := (Some 0x183227397098D014DC2822DB40C0AC2ECBC0B548B438E5469E10460B6C3E7EA3);
  a_tm1h := (Some 0xC19139CB84C680A6E14116DA060561765E05AA45A1C72A34F082305B61F3F51);
  a_arith := 0x01; a_geom := 0x02; a_mult := 0x03;
  a_root := 0x30644E72E131A029B85045B68181585D97816A916871CA8D3C208C16D87CFD46;
  a_nqr := (Some 0x03);
  a_nqr_to_t := (Some 0x30644E72E131A029B85045B68181585D97816A916871CA8D3C208C16D87CFD46);
  a_R2 := (Some 0x6D89F71CAB8351F47AB1EFF0A417FF6B5E71911D44501FBF32CFC5B538AFA89);
  a_R3 := (Some 0x20FD6E902D592544EF7F0B0C0ADA0AFB62F210E6A7283DB6B1CD6DAFDA1530DF);
  a_order := (Some 0x183227397098D014DC2822DB40C0AC2ECBC0B548B438E5469E10460B6C3E7EA3);
  a_half := None |}.
(* fields/arithmetic_params/alt_bn128.hpp:76-99 *)
Definition alt_bn128_fp2_254_arith : ext_arith := {|
  x_p := alt_bn128_base_field_254_modulus; x_n := 2;
  x_s := 0x04;
  x_t := 0x925C4B8763CBF9C599A6F7C0348D21CB00B85511637560626EDFA5C34C6B38D04689E957A1242C84A50189C6D96CADCA602072D09EAC1013B5458A2275D69B;
  x_tm1h := 0x492E25C3B1E5FCE2CCD37BE01A4690E5805C2A88B1BAB031376FD2E1A6359C682344F4ABD09216425280C4E36CB656E5301039684F560809DAA2C5113AEB4D;
  x_nqr := [0x02; 0x01];
  x_nqr_to_t := [0xB20DCB5704E326A0DD3ECD4F30515275398A41A4E1DC5D347CFBBEDDA71CF82; 0xB1FFEFD8885BF22252522C29527D19F05CFC50E9715370AB0F3A6CA462390C];
  x_order := (Some 0x492E25C3B1E5FCE2CCD37BE01A4690E5805C2A88B1BAB031376FD2E1A6359C682344F4ABD09216425280C4E36CB656E5301039684F560809DAA2C5113AEB4D8);
  x_half := None |}.
(* fields/arithmetic_params/alt_bn128.hpp:102-132 *)
Definition alt_bn128_scalar_field_254_arith : arith := {|
  a_p := alt_bn128_scalar_field_254_modulus; a_s := 0x1C;
  a_t := (Some 0x30644E72E131A029B85045B68181585D2833E84879B9709143E1F593F);
  a_tm1h := (Some 0x183227397098D014DC2822DB40C0AC2E9419F4243CDCB848A1F0FAC9F);
  a_arith := 0x01; a_geom := 0x02; a_mult := 0x05;
  a_root := 0x2A3C09F0A58A7E8500E0A7EB8EF62ABC402D111E41112ED49BD61B6E725B19F0;
  a_nqr := (Some 0x05);
  a_nqr_to_t := (Some 0x2A3C09F0A58A7E8500E0A7EB8EF62ABC402D111E41112ED49BD61B6E725B19F0);
  a_R2 := (Some 0x216D0B17F4E44A58C49833D53BB808553FE3AB1E35C59E31BB8E645AE216DA7);
  a_R3 := (Some 0xCF8594B7FCC657C893CC664A19FCFED2A489CBE1CFBB6B85E94D8E1B4BF0040);
  a_order := (Some 0x183227397098D014DC2822DB40C0AC2E9419F4243CDCB848A1F0FAC9F8000000);
  a_half := None |}.
(* fields/arithmetic_params/bls12.hpp:45-75 *)
Definition bls12_base_field_381_arith : arith := {|
  a_p := bls12_base_field_381_modulus; a_s := 0x01;
  a_t := (Some 0xD0088F51CBFF34D258DD3DB21A5D66BB23BA5C279C2895FB39869507B587B120F55FFFF58A9FFFFDCFF7FFFFFFFD555);
  a_tm1h := (Some 0x680447A8E5FF9A692C6E9ED90D2EB35D91DD2E13CE144AFD9CC34A83DAC3D8907AAFFFFAC54FFFFEE7FBFFFFFFFEAAA);
  a_arith := 0x01; a_geom := 0x02; a_mult := 0x02;
  a_root := 0x1A0111EA397FE69A4B1BA7B6434BACD764774B84F38512BF6730D2A0F6B0F6241EABFFFEB153FFFFB9FEFFFFFFFFAAAA;
  a_nqr := (Some 0x02);
  a_nqr_to_t := (Some 0x1A0111EA397FE69A4B1BA7B6434BACD764774B84F38512BF6730D2A0F6B0F6241EABFFFEB153FFFFB9FEFFFFFFFFAAAA);
  a_R2 := (Some 0x11988FE592CAE3AA9A793E85B519952D67EB88A9939D83C08DE5476C4C95B6D50A76E6A609D104F1F4DF1F341C341746);
  a_R3 := (Some 0xAA6346091755D4D2512D4356572472834C04E5E921E17619A53352A615E29DD315F831E03A7ADF8ED48AC6BD94CA1E0);
  a_order := None;
  a_half := (Some 0xD0088F51CBFF34D258DD3DB21A5D66BB23BA5C279C2895FB39869507B587B120F55FFFF58A9FFFFDCFF7FFFFFFFD555) |}.
(* fields/arithmetic_params/bls12.hpp:78-101 *)
Definition bls12_fp2_381_arith : ext_arith := {|
  x_p := bls12_base_field_381_modulus; x_n := 2;
  x_s := 0x03;
  x_t := 0x5486F497186BF8E97A4F1D5445E4BD3C5B921CA1CE08D68CDCB3C92693D17A0A14C59FA2DBB94DDEA62926612F1DE023AD0C3390C30B8F6525D0B50E1234092CD7F23DA7CE36E862C586706C42279FAF9DAD63AEC705D564D54000038E31C7;
  x_tm1h := 0x2A437A4B8C35FC74BD278EAA22F25E9E2DC90E50E7046B466E59E49349E8BD050A62CFD16DDCA6EF53149330978EF011D68619C86185C7B292E85A87091A04966BF91ED3E71B743162C338362113CFD7CED6B1D76382EAB26AA00001C718E3;
  x_nqr := [1; 1];
  x_nqr_to_t := [0x6AF0E0437FF400B6831E36D6BD17FFE48395DABC2D3435E77F76E17009241C5EE67992F72EC05F4C81084FBEDE3CC09; 0x135203E60180A68EE2E9C448D77A2CD91C3DEDD930B1CF60EF396489F61EB45E304466CF3E67FA0AF1EE7B04121BDEA2];
  x_order := None;
  x_half := (Some 0x1521BD25C61AFE3A5E93C75511792F4F16E48728738235A3372CF249A4F45E82853167E8B6EE5377A98A49984BC77808EB430CE430C2E3D949742D43848D024B35FC8F69F38DBA18B1619C1B1089E7EBE76B58EBB1C1755935500000E38C71C) |}.
(* fields/arithmetic_params/bls12.hpp:104-134 *)
Definition bls12_scalar_field_381_arith : arith := {|
  a_p := bls12_scalar_field_381_modulus; a_s := 0x20;
  a_t := (Some 0x73EDA753299D7D483339D80809A1D80553BDA402FFFE5BFEFFFFFFFF);
  a_tm1h := (Some 0x39F6D3A994CEBEA4199CEC0404D0EC02A9DED2017FFF2DFF7FFFFFFF);
  a_arith := 0x01; a_geom := 0x02; a_mult := 0x07;
  a_root := 0x16A2A19EDFE81F20D09B681922C813B4B63683508C2280B93829971F439F0D2B;
  a_nqr := (Some 0x05);
  a_nqr_to_t := (Some 0x212D79E5B416B6F0FD56DC8D168D6C0C4024FF270B3E0941B788F500B912F1F);
  a_R2 := (Some 0x748D9D99F59FF1105D314967254398F2B6CEDCB87925C23C999E990F3F29C6D);
  a_R3 := (Some 0x6E2A5BB9C8DB33E973D13C71C7B5F4181B3E0D188CF06990C62C1807439B73AF);
  a_order := None;
  a_half := (Some 0x39F6D3A994CEBEA4199CEC0404D0EC02A9DED2017FFF2DFF7FFFFFFF80000000) |}.
(* fields/arithmetic_params/bls12.hpp:139-169 *)
Definition bls12_base_field_377_arith : arith := {|
  a_p := bls12_base_field_377_modulus; a_s := 0x2E;
  a_t := (Some 0x6B8E9185F1443AB18EC1701B28524EC688B67CC03D44E3C7BCD88BEE82520005C2D7510C00000021423);
  a_tm1h := (Some 0x35C748C2F8A21D58C760B80D94292763445B3E601EA271E3DE6C45F741290002E16BA88600000010A11);
  a_arith := 0x01; a_geom := 0x02; a_mult := 0x0F;
  a_root := 0x36A92E05198A8030F152488AEFFC9B40FBE05B4512A3D4B44D994A0DDFF8C606DF0A4306FE0BC37ECA603CC563B9A1;
  a_nqr := (Some 0x05);
  a_nqr_to_t := (Some 0x382D3D99CDBC5D8FE9DEE6AA914B0AD14FCACA7022110EC6EAA2BC56228AC41EA03D28CC795186BA6B5EF26B00BBE8);
  a_R2 := (Some 0x6DFCCB1E914B88837E92F041790BF9BFDF7D03827DC3AC22A5F11162D6B46D0329FCAAB00431B1B786686C9400CD22);
  a_R3 := (Some 0x1065AB4C0E7DDA53F72540713590CB96A2A9516C804A20E2BE8B1180449F513E50F4148BE329585581F532F8815DE20);
  a_order := None;
  a_half := (Some 0xD71D230BE28875631D82E03650A49D8D116CF9807A89C78F79B117DD04A4000B85AEA2180000004284600000000000) |}.
(* fields/arithmetic_params/bls12.hpp:172-195 *)
Definition bls12_fp2_377_arith : ext_arith := {|
  x_p := bls12_base_field_377_modulus; x_n := 2;
  x_s := 0x2F;
  x_t := 0x5A60FA1775FF644AD227766C24C78977170FB495DD27E3EBCE2827BB49AB813A0315F720CC19B8029CE24A0549AD88C155555176E15C063064972B0C7193AD797F7A46BE3813495B44D1E5C37B000E671A4A9E00000021423;
  x_tm1h := 0x2D307D0BBAFFB2256913BB361263C4BB8B87DA4AEE93F1F5E71413DDA4D5C09D018AFB90660CDC014E712502A4D6C460AAAAA8BB70AE0318324B958638C9D6BCBFBD235F1C09A4ADA268F2E1BD8007338D254F00000010A11;
  x_nqr := [0x00; 0x01];
  x_nqr_to_t := [0x00; 0x1ABEF7237D62007BB9B2EDA5AFCB52F9D179F23DBD49B8D1B24CF7C1BF8066791317689172D0F4CB90CF47182B7D7B2];
  x_order := None;
  x_half := (Some 0x16983E85DD7FD912B489DD9B0931E25DC5C3ED257749F8FAF38A09EED26AE04E80C57DC833066E00A7389281526B62305555545DB857018C1925CAC31C64EB5E5FDE91AF8E04D256D1347970DEC00399C692A780000008508C00000000000) |}.
(* fields/arithmetic_params/bls12.hpp:198-228 *)
Definition bls12_scalar_field_377_arith : arith := {|
  a_p := bls12_scalar_field_377_modulus; a_s := 0x2F;
  a_t := (Some 0x2556CABD34594AACC1689A3CB86F6002B354EDFDA00000021423);
  a_tm1h := (Some 0x12AB655E9A2CA55660B44D1E5C37B00159AA76FED00000010A11);
  a_arith := 0x01; a_geom := 0x02; a_mult := 0x16;
  a_root := 0x11D4B7F60CB92CC160C69477D1A8A12F9B506EE363E3F04A476EF4A4EC2A895E;
  a_nqr := (Some 0x0B);
  a_nqr_to_t := (Some 0xF4F58D6B338DB36480B0DA08D4FF39BE5C1F1B84059D4CD726869AAA623875C);
  a_R2 := (Some 0x11FDAE7EFF1C939A7CC008FE5DC8593CC2C27B58860591F25D577BAB861857B);
  a_R3 := (Some 0x601DFA555C48DDAB1E55EF6F1C9D713624D23FFAE2716996A4295C90F65454C);
  a_order := None;
  a_half := (Some 0x955B2AF4D1652AB305A268F2E1BD800ACD53B7F680000008508C00000000000) |}.
(* fields/arithmetic_params/bn128.hpp:43-73 *)
Definition bn128_base_field_254_arith : arith := {|
  a_p := bn128_base_field_254_modulus; a_s := 0x01;
  a_t := (Some 0x183227397098D014DC2822DB40C0AC2ECBC0B548B438E5469E10460B6C3E7EA3);
  a_tm1h := (Some 0xC19139CB84C680A6E14116DA060561765E05AA45A1C72A34F082305B61F3F51);
  a_arith := 0x01; a_geom := 0x02; a_mult := 0x03;
  a_root := 0x30644E72E131A029B85045B68181585D97816A916871CA8D3C208C16D87CFD46;
  a_nqr := (Some 0x03);
  a_nqr_to_t := (Some 0x30644E72E131A029B85045B68181585D97816A916871CA8D3C208C16D87CFD46);
  a_R2 := (Some 0x6D89F71CAB8351F47AB1EFF0A417FF6B5E71911D44501FBF32CFC5B538AFA89);
  a_R3 := (Some 0x20FD6E902D592544EF7F0B0C0ADA0AFB62F210E6A7283DB6B1CD6DAFDA1530DF);
  a_order := (Some 0x183227397098D014DC2822DB40C0AC2ECBC0B548B438E5469E10460B6C3E7EA3);
  a_half := None |}.
(* fields/arithmetic_params/bn128.hpp:76-99 *)
Definition bn128_fp2_254_arith : ext_arith := {|
  x_p := bn128_base_field_254_modulus; x_n := 2;
  x_s := 0x04;
  x_t := 0x925C4B8763CBF9C599A6F7C0348D21CB00B85511637560626EDFA5C34C6B38D04689E957A1242C84A50189C6D96CADCA602072D09EAC1013B5458A2275D69B;
  x_tm1h := 0x492E25C3B1E5FCE2CCD37BE01A4690E5805C2A88B1BAB031376FD2E1A6359C682344F4ABD09216425280C4E36CB656E5301039684F560809DAA2C5113AEB4D;
  x_nqr := [0x02; 0x01];
  x_nqr_to_t := [0xB20DCB5704E326A0DD3ECD4F30515275398A41A4E1DC5D347CFBBEDDA71CF82; 0xB1FFEFD8885BF22252522C29527D19F05CFC50E9715370AB0F3A6CA462390C];
  x_order := (Some 0x492E25C3B1E5FCE2CCD37BE01A4690E5805C2A88B1BAB031376FD2E1A6359C682344F4ABD09216425280C4E36CB656E5301039684F560809DAA2C5113AEB4D8);
  x_half := None |}.
(* fields/arithmetic_params/bn128.hpp:102-132 *)
Definition bn128_scalar_field_254_arith : arith := {|
  a_p := bn128_scalar_field_254_modulus; a_s := 0x1C;
  a_t := (Some 0x30644E72E131A029B85045B68181585D2833E84879B9709143E1F593F);
  a_tm1h := (Some 0x183227397098D014DC2822DB40C0AC2E9419F4243CDCB848A1F0FAC9F);
  a_arith := 0x01; a_geom := 0x02; a_mult := 0x05;
  a_root := 0x2A3C09F0A58A7E8500E0A7EB8EF62ABC402D111E41112ED49BD61B6E725B19F0;
  a_nqr := (Some 0x05);
  a_nqr_to_t := (Some 0x2A3C09F0A58A7E8500E0A7EB8EF62ABC402D111E41112ED49BD61B6E725B19F0);
  a_R2 := (Some 0x216D0B17F4E44A58C49833D53BB808553FE3AB1E35C59E31BB8E645AE216DA7);
  a_R3 := (Some 0xCF8594B7FCC657C893CC664A19FCFED2A489CBE1CFBB6B85E94D8E1B4BF0040);
  a_order := (Some 0x183227397098D014DC2822DB40C0AC2E9419F4243CDCB848A1F0FAC9F8000000);
  a_half := None |}.
(* fields/arithmetic_params/edwards.hpp:43-72 *)
Definition edwards_base_field_183_arith : arith := {|
  a_p := edwards_base_field_183_modulus; a_s := 0x1F;
  a_t := (Some 0x81ABF93A5472B62717249DAC685A836DD6D217);
  a_tm1h := (Some 0x40D5FC9D2A395B138B924ED6342D41B6EB690B);
  a_arith := 0x01; a_geom := 0x02; a_mult := 0x3D;
  a_root := 0x30FEC8F966ACFB3EC66B728E26AE7A5C00AAE9A96D8FE8;
  a_nqr := (Some 0x17);
  a_nqr_to_t := (Some 0x1B6CA5BFFDB95045F86768636493E1C6488D1BD4605D82);
  a_R2 := (Some 0x3E0DBC8EEC1F76E0BF35FF926AC105F6D1824A80E54068);
  a_R3 := (Some 0xB4AC1B77CA0D59F20E4D04D7048823FE112E6248253AD);
  a_order := (Some 0x206AFE4E951CAD89C5C9276B1A16A0DB75B485C0000000);
  a_half := None |}.
(* fields/arithmetic_params/edwards.hpp:75-98 *)
Definition edwards_fp3_183_arith : ext_arith := {|
  x_p := edwards_base_field_183_modulus; x_n := 3;
  x_s := 0x1F;
  x_t := 0x8514C337908664095AA1E4077718C1F93B49FEBD3E1DE5A3BF284A7BC8C90EE457BC1D3D59409F6A8049FB3D3B1E20915D50941493A9E2B4B0685ACA3C9847645;
  x_tm1h := 0x428A619BC8433204AD50F203BB8C60FC9DA4FF5E9F0EF2D1DF94253DE46487722BDE0E9EACA04FB54024FD9E9D8F1048AEA84A0A49D4F15A58342D651E4C23B22;
  x_nqr := [0x17; 0x00; 0x00];
  x_nqr_to_t := [0x118228ECB464A2F6EB8DACC18FA757E45B3989330150C; 0x00; 0x00];
  x_order := (Some 0x214530CDE421990256A87901DDC6307E4ED27FAF4F877968EFCA129EF23243B915EF074F565027DAA0127ECF4EC788245754250524EA78AD2C1A16B28F2611D9140000000);
  x_half := None |}.
(* fields/arithmetic_params/edwards.hpp:101-130 *)
Definition edwards_scalar_field_183_arith : arith := {|
  a_p := edwards_scalar_field_183_modulus; a_s := 0x1F;
  a_t := (Some 0x206AFE4E951CAD89C5C927725C25983BCAA64F);
  a_tm1h := (Some 0x10357F274A8E56C4E2E493B92E12CC1DE55327);
  a_arith := 0x01; a_geom := 0x02; a_mult := 0x13;
  a_root := 0x74269BCA66AFEC88761200401AECDBB2F967D2689CEE0;
  a_nqr := (Some 0x0B);
  a_nqr_to_t := (Some 0xDD9F9CD9D463B4BE2359BF98F83964B0CA0C9B9EB2CA9);
  a_R2 := (Some 0x67DC2BC868E4573FB10E45FEF0D1D70518837BA19AB13);
  a_R3 := (Some 0x96567C1A3452F0CC48A73504E02D6B598A5139B464B62);
  a_order := (Some 0x81ABF93A5472B62717249DC9709660EF2A993C0000000);
  a_half := None |}.
(* fields/arithmetic_params/goldilocks64.hpp:38-52 *)
Definition goldilocks64_base_field_arith : arith := {|
  a_p := goldilocks64_base_field_modulus; a_s := 0x20;
  a_t := None;
  a_tm1h := None;
  a_arith := 0x01; a_geom := 0x02; a_mult := 0x07;
  a_root := 0x185629DCDA58878C;
  a_nqr := None;
  a_nqr_to_t := None;
  a_R2 := None;
  a_R3 := None;
  a_order := None;
  a_half := None |}.
(* fields/arithmetic_params/mnt4.hpp:44-74 *)
Definition mnt4_base_field_298_arith : arith := {|
  a_p := mnt4_base_field_298_modulus; a_s := 0x11;
  a_t := (Some 0x1DE7BDE6A39D133124ED3D82A47657764B1AE89987520D4F1AF2890070964866B2D38B3);
  a_tm1h := (Some 0xEF3DEF351CE899892769EC1523B2BBB258D744CC3A906A78D794480384B24335969C59);
  a_arith := 0x01; a_geom := 0x02; a_mult := 0x11;
  a_root := 0x214431121152176339675F00F9D465A3C037F18735DB28205F2A5F57D155F151CEC101EEC43;
  a_nqr := (Some 0x11);
  a_nqr_to_t := (Some 0x214431121152176339675F00F9D465A3C037F18735DB28205F2A5F57D155F151CEC101EEC43);
  a_R2 := (Some 0x224F0918A341F32E014AD38D47B66BD7673318850E1A266A1ADBF2BC8930065ACEC5613D220);
  a_R3 := (Some 0x35B329C5C21DB492B899FB731B0626C4C908A5073171DE648C893BA7447A3FE093A2C77F995);
  a_order := (Some 0x1DE7BDE6A39D133124ED3D82A47657764B1AE89987520D4F1AF2890070964866B2D38B30000);
  a_half := None |}.
(* fields/arithmetic_params/mnt4.hpp:77-99 *)
Definition mnt4_fp2_298_arith : ext_arith := {|
  x_p := mnt4_base_field_298_modulus; x_n := 2;
  x_s := 0x12;
  x_t := 0x37E52CE842B39321A34D7BA62E2C735153C68D35F7A312CDB18451030CB297F3B772167A8487033D5772A0EF6BEA9BCA60190FFE1CDB642F88A0FF2EFF7A6A3A80FD00203385638B3;
  x_tm1h := 0x1BF296742159C990D1A6BDD3171639A8A9E3469AFBD18966D8C2288186594BF9DBB90B3D4243819EABB95077B5F54DE5300C87FF0E6DB217C4507F977FBD351D407E801019C2B1C59;
  x_nqr := [0x08; 0x01];
  x_nqr_to_t := [0x00; 0x3B1F45391287A9CB585B8E5504C24BF1EC2010553885078C85899ACD708205080134A9BE6A];
  x_order := (Some 0x6FCA59D085672643469AF74C5C58E6A2A78D1A6BEF46259B6308A20619652FE76EE42CF5090E067AAEE541DED7D53794C0321FFC39B6C85F1141FE5DFEF4D47501FA0040670AC71660000);
  x_half := None |}.
(* fields/arithmetic_params/mnt6.hpp:44-74 *)
Definition mnt6_base_field_298_arith : arith := {|
  a_p := mnt6_base_field_298_modulus; a_s := 0x22;
  a_t := (Some 0xEF3DEF351CE899892769EC1523B2BBB258D73D10653ED25301E4975AB4EED0CD29);
  a_tm1h := (Some 0x779EF79A8E744CC493B4F60A91D95DD92C6B9E88329F692980F24BAD5A77686694);
  a_arith := 0x01; a_geom := 0x02; a_mult := 0x0A;
  a_root := 0xF29386B6F08DFECE98F8AA2954E2CF8650D75AE5D90488A8934C1AA0BB321B07D3B48F8379;
  a_nqr := (Some 0x05);
  a_nqr_to_t := (Some 0x330D0653B5BA46A85FC6D3958E16DA566E30E50010AAC4A990E4047A12E2043EE3EF848E190);
  a_R2 := (Some 0x149BB44A34202FF00DCED8E4B6D4BBD6DCF1E3A8386034F9102ADB68371465A743C68E0596B);
  a_R3 := (Some 0x1A0B411C083B440F6A9ED2947CEAC13907BAB5D43C2F687B031B7F0B2B9B6DE2F1B99BD9C4B);
  a_order := (Some 0x1DE7BDE6A39D133124ED3D82A47657764B1AE7A20CA7DA4A603C92EB569DDA19A5200000000);
  a_half := None |}.
(* fields/arithmetic_params/mnt6.hpp:77-100 *)
Definition mnt6_fp3_298_arith : ext_arith := {|
  x_p := mnt6_base_field_298_modulus; x_n := 3;
  x_s := 0x22;
  x_t := 0xD0F1EB0C5D321E87BF885ACDEBEDB4C0D6B30E63AB6E7BF6417A7990679AA640A7D58FB90CC708D572D32DFD6443366D2F92F48FF1A02FDB0CC11573BAB71F8E5E05B07DEA208A7E11F3E61C9968CC65F379EFCEF9472C7FC6DEE40194CA1DF9F801DC0D24656EACC72677B;
  x_tm1h := 0x6878F5862E990F43DFC42D66F5F6DA606B598731D5B73DFB20BD3CC833CD532053EAC7DC8663846AB96996FEB2219B3697C97A47F8D017ED86608AB9DD5B8FC72F02D83EF510453F08F9F30E4CB46632F9BCF7E77CA3963FE36F7200CA650EFCFC00EE069232B75663933BD;
  x_nqr := [0x05; 0x00; 0x00];
  x_nqr_to_t := [0x1366271F76AB41CEEEE8C1E5E972F3CEC14A25F18B3F4B93642FAD4972356D977470E0FA674; 0x00; 0x00];
  x_order := (Some 0x1A1E3D618BA643D0F7F10B59BD7DB6981AD661CC756DCF7EC82F4F320CF354C814FAB1F72198E11AAE5A65BFAC8866CDA5F25E91FE3405FB619822AE7756E3F1CBC0B60FBD44114FC23E7CC3932D198CBE6F3DF9DF28E58FF8DBDC80329943BF3F003B81A48CADD598E4CEF600000000);
  x_half := None |}.
(* fields/arithmetic_params/pallas.hpp:43-58 *)
Definition pallas_base_field_arith : arith := {|
  a_p := pallas_base_field_modulus; a_s := 0x20;
  a_t := None;
  a_tm1h := None;
  a_arith := 0x01; a_geom := 0x02; a_mult := 0x05;
  a_root := 0x1ea14637cbe1870c65d520c6cd47d259883000713dc3c2a1adf8b071592f247a;
  a_nqr := (Some 0x05);
  a_nqr_to_t := None;
  a_R2 := None;
  a_R3 := None;
  a_order := None;
  a_half := None |}.
(* fields/arithmetic_params/vesta.hpp:42-57 *)
Definition vesta_base_field_arith : arith := {|
  a_p := vesta_base_field_modulus; a_s := 0x20;
  a_t := None;
  a_tm1h := None;
  a_arith := 0x01; a_geom := 0x02; a_mult := 0x05;
  a_root := 0x39579430a0535caa2072a2239079f02b4c5b0caa29bfe9396f80d8a28434208f;
  a_nqr := (Some 0x05);
  a_nqr_to_t := None;
  a_R2 := None;
  a_R3 := None;
  a_order := None;
  a_half := None |}.

(* fields/arithmetic_params/dsa_botan.hpp:42-57 *)
Definition dsa_botan_2048_group : dl_group := {|
  d_p := dsa_botan_2048_modulus;
  d_g := 0xD9F5E0761B4DBD1833D6AB1A961A0996C5F22303F72D84C140F67C431D94AB5715BEA81A0C98D39CE4BCF78D6B9EBC895D34FE89D94091D5848615EF15F5E86F11D96F6C969E203DDFA58356420A49CB444B595B901A933CFE0767B594F18A07B7F91DECDBA446B88990F78F2FF91F2FE7CD43FD2E46D18EADA1F7BB6602C617F6EF3A4B284F2FD9BA10A36042DE8FA87A2CA36597FEC81157A1485E44041DF02830111CB880BBE6ED494814886F965CDC3135F5CCF1383728BF65B806F9692C0B10D6C4C09C75A6CA3B4013CB16AB2C105F6BE23AEA9000EAB2178985F972C98057E1C86E44E7218688EA4AE0F3636DCCA745C9DCD4E6AFFB67CCBC13D6131;
  d_q := 0x8CD7D450F86F0AD94EEE4CE469A8756D1EBD1058241943EAFFB0B354585E924D |}.
(* fields/arithmetic_params/dsa_botan.hpp:60-75 *)
Definition dsa_botan_3072_group : dl_group := {|
  d_p := dsa_botan_3072_modulus;
  d_g := 0x2BED21EEF83964A230AE89BBA71D9F7C39C52FC8229B4E3BC7E5944D329DA10F010EAC9E7BAF6C009FC4EB2960723E2B56DF4663E4C3AC800E9258DE2F7649D206782893F865EFCA498D2EEF30074EA5E8A7AB262712A4D94A2F3B0B9A92EE400FB38A3CC59A5DC7E436D5C004B22E35028381B51C93407EB32D4AE0FD42CB45E12D0ECEE8A26238EDE2082A7B1522113C66CEF8D745C6CF3CB945F84D2F4DE16D44A71DE198270E13F03553C88B8D323AD0B948A1BF2103A949979B6ED16FB5F3C953D95B7C8E88CA67DCF5A636FB9CA39D924215F7A884ED6C7EE3C96D8D9715427974B7C4351282E13D3773F7D28B452F10892A13C7587328DEA4827B6B369B2A8DC172ADC583F51F2A6598C5483E5BC467B02F91D059C402D18E2C2680F776AA06F49280A2C72C17CC42D5B6E740C5C4B1AB3C51C2ED092BE2A2D8B053AE5773D1425ED2B08F06E2DD50592DF1A478C15591CDFD11564FF88FF38B721D42392FDA473212DCFD8D2D88A976A00AFFE6FFFB430A359E64CA2B351CA2412394;
  d_q := 0xB3EBD364EC69EF8CF3BAF643B75734B16339B2E49E5CDE1B59C1E9FB40EE0C5B |}.
(* fields/arithmetic_params/dsa_jce.hpp:42-57 *)
Definition dsa_jce_1024_group : dl_group := {|
  d_p := dsa_jce_1024_modulus;
  d_g := 0x469603512E30278CD3947595DB22EEC9826A6322ADC97344F41D740C325724C8F9EFBAA7D4D803FF8C609DCD100EBC5BDFCFAD7C6A425FAEA786EA2050EBE98351EA1FDA1FDF24D6947AA6B9AA23766953802F4D7D4A8ECBA06D19768A2491FFB16D0EF9C43A99B5F71672FF6F0A24B444D0736D04D38A1A1322DAF6CDD88C9D;
  d_q := 0x9760508F15230BCCB292B982A2EB840BF0581CF5 |}.

(* fields/arithmetic_params/ed25519.hpp:42-53; ed25519 is curve25519_base_field
   (fields/curve25519/base_field.hpp:89) *)
Definition ed25519_multiplicative_generator : Z := 0x02.

(** every prime-field specialisation *)
(** fields/arithmetic_params/<curve>.hpp: the values above, each with its lines *)
Definition shipped_arith : list arith := [
  alt_bn128_base_field_254_arith;
  alt_bn128_scalar_field_254_arith;
  bls12_base_field_381_arith;
  bls12_scalar_field_381_arith;
  bls12_base_field_377_arith;
  bls12_scalar_field_377_arith;
  bn128_base_field_254_arith;
  bn128_scalar_field_254_arith;
  edwards_base_field_183_arith;
  edwards_scalar_field_183_arith;
  goldilocks64_base_field_arith;
  mnt4_base_field_298_arith;
  mnt6_base_field_298_arith;
  pallas_base_field_arith;
  vesta_base_field_arith].
(** every extension-field specialisation *)
(** fields/arithmetic_params/<curve>.hpp: the values above, each with its lines *)
Definition shipped_ext_arith : list ext_arith := [
  alt_bn128_fp2_254_arith;
  bls12_fp2_381_arith;
  bls12_fp2_377_arith;
  bn128_fp2_254_arith;
  edwards_fp3_183_arith;
  mnt4_fp2_298_arith;
  mnt6_fp3_298_arith].
(** every discrete-logarithm group *)
(** fields/arithmetic_params/dsa_jce.hpp: the values above, each with its lines *)
Definition shipped_dl_groups : list dl_group := [dsa_botan_2048_group; dsa_botan_3072_group; dsa_jce_1024_group].
