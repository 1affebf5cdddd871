(** * Parts of tests/tdms-test-file.tdms of /repo, a file written by LabVIEW

    Whole segments: bytes 0-72902 (group "structure": two contiguous and two
    interleaved segments), 363623-375890 (group "subblock"), 484010-485421,
    488134-489011 (group "datatypes") and 532374-533964 (more types, and the
    properties of the file, a group and a channel).  Left out: further segments of
    the same kinds.  64 bytes per number, the first byte the lowest. *)
From Verif Require Import Base.

(** The lowest [w] bits of a number and the others (this and the next two only
    decode the table below; they model nothing in /repo). *)
Fixpoint bits (w : nat) (p : positive) : N * option positive :=
  match w with
  | O => (0, Some p)
  | S w' => match p with
            | xH => (1, None)
            | xO q => let '(n, r) := bits w' q in (N.double n, r)
            | xI q => let '(n, r) := bits w' q in (N.succ_double n, r)
            end
  end.
(** The lowest [w] bytes (decodes the table below). *)
Fixpoint chunk (w : nat) (p : option positive) : list byte :=
  match w with
  | O => []
  | S w' => match p with
            | None => x00 :: chunk w' None
            | Some p => let '(n, r) := bits 8 p in byte_of_N n :: chunk w' r
            end
  end.
(** (Decodes the table below.) *)
Definition num (n : N) : option positive := match n with N0 => None | Npos p => Some p end.

(** The bytes, tests/tdms-test-file.tdms. *)
Definition raw : list N := [
  0x6d64740000000e00000020656d616e0000000400000001ffffffff2f0000000100000005000000000000011f0000000000005edf000012690000000e6d534454;
  0x00000a0000001427316863272f27657275746375727473272f0000001200000000ffffffff27657275746375727473272f0000000c656c69662d747365742d73;
  0x326863272f27657275746375727473272f0000001200000000000000036e6d756c6f4379617272415f494e0000000e0000000100000000000003e80000000100;
  0x75746375727473272f0000001200000001000000036e6d756c6f4379617272415f494e0000000e0000000100000000000003e8000000010000000a0000001427;
  0x000000000000000002000000036e6d756c6f4379617272415f494e0000000e0000000100000000000003e8000000010000000a0000001427336863272f276572;
  0x0000000000401c000000000000401800000000000040140000000000004010000000000000400800000000000040000000000000003ff0000000000000000000;
  0x0000000000402e000000000000402c000000000000402a0000000000004028000000000000402600000000000040240000000000004022000000000000402000;
  0x00000000004037000000000000403600000000000040350000000000004034000000000000403300000000000040320000000000004031000000000000403000;
  0x0000000000403f000000000000403e000000000000403d000000000000403c000000000000403b000000000000403a0000000000004039000000000000403800;
  0x00000000004043800000000000404300000000000040428000000000004042000000000000404180000000000040410000000000004040800000000000404000;
  0x00000000004047800000000000404700000000000040468000000000004046000000000000404580000000000040450000000000004044800000000000404400;
  0x0000000000404b800000000000404b000000000000404a800000000000404a000000000000404980000000000040490000000000004048800000000000404800;
  0x0000000000404f800000000000404f000000000000404e800000000000404e000000000000404d800000000000404d000000000000404c800000000000404c00;
  0x00000000004051c000000000004051800000000000405140000000000040510000000000004050c0000000000040508000000000004050400000000000405000;
  0x00000000004053c000000000004053800000000000405340000000000040530000000000004052c0000000000040528000000000004052400000000000405200;
  0x00000000004055c000000000004055800000000000405540000000000040550000000000004054c0000000000040548000000000004054400000000000405400;
  0x00000000004057c000000000004057800000000000405740000000000040570000000000004056c0000000000040568000000000004056400000000000405600;
  0x00000000004059c000000000004059800000000000405940000000000040590000000000004058c0000000000040588000000000004058400000000000405800;
  0x0000000000405bc00000000000405b800000000000405b400000000000405b000000000000405ac00000000000405a800000000000405a400000000000405a00;
  0x0000000000405dc00000000000405d800000000000405d400000000000405d000000000000405cc00000000000405c800000000000405c400000000000405c00;
  0x0000000000405fc00000000000405f800000000000405f400000000000405f000000000000405ec00000000000405e800000000000405e400000000000405e00;
  0x00000000004060e000000000004060c000000000004060a000000000004060800000000000406060000000000040604000000000004060200000000000406000;
  0x00000000004061e000000000004061c000000000004061a000000000004061800000000000406160000000000040614000000000004061200000000000406100;
  0x00000000004062e000000000004062c000000000004062a000000000004062800000000000406260000000000040624000000000004062200000000000406200;
  0x00000000004063e000000000004063c000000000004063a000000000004063800000000000406360000000000040634000000000004063200000000000406300;
  0x00000000004064e000000000004064c000000000004064a000000000004064800000000000406460000000000040644000000000004064200000000000406400;
  0x00000000004065e000000000004065c000000000004065a000000000004065800000000000406560000000000040654000000000004065200000000000406500;
  0x00000000004066e000000000004066c000000000004066a000000000004066800000000000406660000000000040664000000000004066200000000000406600;
  0x00000000004067e000000000004067c000000000004067a000000000004067800000000000406760000000000040674000000000004067200000000000406700;
  0x00000000004068e000000000004068c000000000004068a000000000004068800000000000406860000000000040684000000000004068200000000000406800;
  0x00000000004069e000000000004069c000000000004069a000000000004069800000000000406960000000000040694000000000004069200000000000406900;
  0x0000000000406ae00000000000406ac00000000000406aa00000000000406a800000000000406a600000000000406a400000000000406a200000000000406a00;
  0x0000000000406be00000000000406bc00000000000406ba00000000000406b800000000000406b600000000000406b400000000000406b200000000000406b00;
  0x0000000000406ce00000000000406cc00000000000406ca00000000000406c800000000000406c600000000000406c400000000000406c200000000000406c00;
  0x0000000000406de00000000000406dc00000000000406da00000000000406d800000000000406d600000000000406d400000000000406d200000000000406d00;
  0x0000000000406ee00000000000406ec00000000000406ea00000000000406e800000000000406e600000000000406e400000000000406e200000000000406e00;
  0x0000000000406fe00000000000406fc00000000000406fa00000000000406f800000000000406f600000000000406f400000000000406f200000000000406f00;
  0x00000000004070700000000000407060000000000040705000000000004070400000000000407030000000000040702000000000004070100000000000407000;
  0x00000000004070f000000000004070e000000000004070d000000000004070c000000000004070b000000000004070a000000000004070900000000000407080;
  0x00000000004071700000000000407160000000000040715000000000004071400000000000407130000000000040712000000000004071100000000000407100;
  0x00000000004071f000000000004071e000000000004071d000000000004071c000000000004071b000000000004071a000000000004071900000000000407180;
  0x00000000004072700000000000407260000000000040725000000000004072400000000000407230000000000040722000000000004072100000000000407200;
  0x00000000004072f000000000004072e000000000004072d000000000004072c000000000004072b000000000004072a000000000004072900000000000407280;
  0x00000000004073700000000000407360000000000040735000000000004073400000000000407330000000000040732000000000004073100000000000407300;
  0x00000000004073f000000000004073e000000000004073d000000000004073c000000000004073b000000000004073a000000000004073900000000000407380;
  0x00000000004074700000000000407460000000000040745000000000004074400000000000407430000000000040742000000000004074100000000000407400;
  0x00000000004074f000000000004074e000000000004074d000000000004074c000000000004074b000000000004074a000000000004074900000000000407480;
  0x00000000004075700000000000407560000000000040755000000000004075400000000000407530000000000040752000000000004075100000000000407500;
  0x00000000004075f000000000004075e000000000004075d000000000004075c000000000004075b000000000004075a000000000004075900000000000407580;
  0x00000000004076700000000000407660000000000040765000000000004076400000000000407630000000000040762000000000004076100000000000407600;
  0x00000000004076f000000000004076e000000000004076d000000000004076c000000000004076b000000000004076a000000000004076900000000000407680;
  0x00000000004077700000000000407760000000000040775000000000004077400000000000407730000000000040772000000000004077100000000000407700;
  0x00000000004077f000000000004077e000000000004077d000000000004077c000000000004077b000000000004077a000000000004077900000000000407780;
  0x00000000004078700000000000407860000000000040785000000000004078400000000000407830000000000040782000000000004078100000000000407800;
  0x00000000004078f000000000004078e000000000004078d000000000004078c000000000004078b000000000004078a000000000004078900000000000407880;
  0x00000000004079700000000000407960000000000040795000000000004079400000000000407930000000000040792000000000004079100000000000407900;
  0x00000000004079f000000000004079e000000000004079d000000000004079c000000000004079b000000000004079a000000000004079900000000000407980;
  0x0000000000407a700000000000407a600000000000407a500000000000407a400000000000407a300000000000407a200000000000407a100000000000407a00;
  0x0000000000407af00000000000407ae00000000000407ad00000000000407ac00000000000407ab00000000000407aa00000000000407a900000000000407a80;
  0x0000000000407b700000000000407b600000000000407b500000000000407b400000000000407b300000000000407b200000000000407b100000000000407b00;
  0x0000000000407bf00000000000407be00000000000407bd00000000000407bc00000000000407bb00000000000407ba00000000000407b900000000000407b80;
  0x0000000000407c700000000000407c600000000000407c500000000000407c400000000000407c300000000000407c200000000000407c100000000000407c00;
  0x0000000000407cf00000000000407ce00000000000407cd00000000000407cc00000000000407cb00000000000407ca00000000000407c900000000000407c80;
  0x0000000000407d700000000000407d600000000000407d500000000000407d400000000000407d300000000000407d200000000000407d100000000000407d00;
  0x0000000000407df00000000000407de00000000000407dd00000000000407dc00000000000407db00000000000407da00000000000407d900000000000407d80;
  0x0000000000407e700000000000407e600000000000407e500000000000407e400000000000407e300000000000407e200000000000407e100000000000407e00;
  0x0000000000407ef00000000000407ee00000000000407ed00000000000407ec00000000000407eb00000000000407ea00000000000407e900000000000407e80;
  0x0000000000407f700000000000407f600000000000407f500000000000407f400000000000407f300000000000407f200000000000407f100000000000407f00;
  0x0000000000407ff00000000000407fe00000000000407fd00000000000407fc00000000000407fb00000000000407fa00000000000407f900000000000407f80;
  0x00000000004080380000000000408030000000000040802800000000004080200000000000408018000000000040801000000000004080080000000000408000;
  0x00000000004080780000000000408070000000000040806800000000004080600000000000408058000000000040805000000000004080480000000000408040;
  0x00000000004080b800000000004080b000000000004080a800000000004080a00000000000408098000000000040809000000000004080880000000000408080;
  0x00000000004080f800000000004080f000000000004080e800000000004080e000000000004080d800000000004080d000000000004080c800000000004080c0;
  0x00000000004081380000000000408130000000000040812800000000004081200000000000408118000000000040811000000000004081080000000000408100;
  0x00000000004081780000000000408170000000000040816800000000004081600000000000408158000000000040815000000000004081480000000000408140;
  0x00000000004081b800000000004081b000000000004081a800000000004081a00000000000408198000000000040819000000000004081880000000000408180;
  0x00000000004081f800000000004081f000000000004081e800000000004081e000000000004081d800000000004081d000000000004081c800000000004081c0;
  0x00000000004082380000000000408230000000000040822800000000004082200000000000408218000000000040821000000000004082080000000000408200;
  0x00000000004082780000000000408270000000000040826800000000004082600000000000408258000000000040825000000000004082480000000000408240;
  0x00000000004082b800000000004082b000000000004082a800000000004082a00000000000408298000000000040829000000000004082880000000000408280;
  0x00000000004082f800000000004082f000000000004082e800000000004082e000000000004082d800000000004082d000000000004082c800000000004082c0;
  0x00000000004083380000000000408330000000000040832800000000004083200000000000408318000000000040831000000000004083080000000000408300;
  0x00000000004083780000000000408370000000000040836800000000004083600000000000408358000000000040835000000000004083480000000000408340;
  0x00000000004083b800000000004083b000000000004083a800000000004083a00000000000408398000000000040839000000000004083880000000000408380;
  0x00000000004083f800000000004083f000000000004083e800000000004083e000000000004083d800000000004083d000000000004083c800000000004083c0;
  0x00000000004084380000000000408430000000000040842800000000004084200000000000408418000000000040841000000000004084080000000000408400;
  0x00000000004084780000000000408470000000000040846800000000004084600000000000408458000000000040845000000000004084480000000000408440;
  0x00000000004084b800000000004084b000000000004084a800000000004084a00000000000408498000000000040849000000000004084880000000000408480;
  0x00000000004084f800000000004084f000000000004084e800000000004084e000000000004084d800000000004084d000000000004084c800000000004084c0;
  0x00000000004085380000000000408530000000000040852800000000004085200000000000408518000000000040851000000000004085080000000000408500;
  0x00000000004085780000000000408570000000000040856800000000004085600000000000408558000000000040855000000000004085480000000000408540;
  0x00000000004085b800000000004085b000000000004085a800000000004085a00000000000408598000000000040859000000000004085880000000000408580;
  0x00000000004085f800000000004085f000000000004085e800000000004085e000000000004085d800000000004085d000000000004085c800000000004085c0;
  0x00000000004086380000000000408630000000000040862800000000004086200000000000408618000000000040861000000000004086080000000000408600;
  0x00000000004086780000000000408670000000000040866800000000004086600000000000408658000000000040865000000000004086480000000000408640;
  0x00000000004086b800000000004086b000000000004086a800000000004086a00000000000408698000000000040869000000000004086880000000000408680;
  0x00000000004086f800000000004086f000000000004086e800000000004086e000000000004086d800000000004086d000000000004086c800000000004086c0;
  0x00000000004087380000000000408730000000000040872800000000004087200000000000408718000000000040871000000000004087080000000000408700;
  0x00000000004087780000000000408770000000000040876800000000004087600000000000408758000000000040875000000000004087480000000000408740;
  0x00000000004087b800000000004087b000000000004087a800000000004087a00000000000408798000000000040879000000000004087880000000000408780;
  0x00000000004087f800000000004087f000000000004087e800000000004087e000000000004087d800000000004087d000000000004087c800000000004087c0;
  0x00000000004088380000000000408830000000000040882800000000004088200000000000408818000000000040881000000000004088080000000000408800;
  0x00000000004088780000000000408870000000000040886800000000004088600000000000408858000000000040885000000000004088480000000000408840;
  0x00000000004088b800000000004088b000000000004088a800000000004088a00000000000408898000000000040889000000000004088880000000000408880;
  0x00000000004088f800000000004088f000000000004088e800000000004088e000000000004088d800000000004088d000000000004088c800000000004088c0;
  0x00000000004089380000000000408930000000000040892800000000004089200000000000408918000000000040891000000000004089080000000000408900;
  0x00000000004089780000000000408970000000000040896800000000004089600000000000408958000000000040895000000000004089480000000000408940;
  0x00000000004089b800000000004089b000000000004089a800000000004089a00000000000408998000000000040899000000000004089880000000000408980;
  0x00000000004089f800000000004089f000000000004089e800000000004089e000000000004089d800000000004089d000000000004089c800000000004089c0;
  0x0000000000408a380000000000408a300000000000408a280000000000408a200000000000408a180000000000408a100000000000408a080000000000408a00;
  0x0000000000408a780000000000408a700000000000408a680000000000408a600000000000408a580000000000408a500000000000408a480000000000408a40;
  0x0000000000408ab80000000000408ab00000000000408aa80000000000408aa00000000000408a980000000000408a900000000000408a880000000000408a80;
  0x0000000000408af80000000000408af00000000000408ae80000000000408ae00000000000408ad80000000000408ad00000000000408ac80000000000408ac0;
  0x0000000000408b380000000000408b300000000000408b280000000000408b200000000000408b180000000000408b100000000000408b080000000000408b00;
  0x0000000000408b780000000000408b700000000000408b680000000000408b600000000000408b580000000000408b500000000000408b480000000000408b40;
  0x0000000000408bb80000000000408bb00000000000408ba80000000000408ba00000000000408b980000000000408b900000000000408b880000000000408b80;
  0x0000000000408bf80000000000408bf00000000000408be80000000000408be00000000000408bd80000000000408bd00000000000408bc80000000000408bc0;
  0x0000000000408c380000000000408c300000000000408c280000000000408c200000000000408c180000000000408c100000000000408c080000000000408c00;
  0x0000000000408c780000000000408c700000000000408c680000000000408c600000000000408c580000000000408c500000000000408c480000000000408c40;
  0x0000000000408cb80000000000408cb00000000000408ca80000000000408ca00000000000408c980000000000408c900000000000408c880000000000408c80;
  0x0000000000408cf80000000000408cf00000000000408ce80000000000408ce00000000000408cd80000000000408cd00000000000408cc80000000000408cc0;
  0x0000000000408d380000000000408d300000000000408d280000000000408d200000000000408d180000000000408d100000000000408d080000000000408d00;
  0x0000000000408d780000000000408d700000000000408d680000000000408d600000000000408d580000000000408d500000000000408d480000000000408d40;
  0x0000000000408db80000000000408db00000000000408da80000000000408da00000000000408d980000000000408d900000000000408d880000000000408d80;
  0x0000000000408df80000000000408df00000000000408de80000000000408de00000000000408dd80000000000408dd00000000000408dc80000000000408dc0;
  0x0000000000408e380000000000408e300000000000408e280000000000408e200000000000408e180000000000408e100000000000408e080000000000408e00;
  0x0000000000408e780000000000408e700000000000408e680000000000408e600000000000408e580000000000408e500000000000408e480000000000408e40;
  0x0000000000408eb80000000000408eb00000000000408ea80000000000408ea00000000000408e980000000000408e900000000000408e880000000000408e80;
  0x0000000000408ef80000000000408ef00000000000408ee80000000000408ee00000000000408ed80000000000408ed00000000000408ec80000000000408ec0;
  0x0000000000408f380000000000408f300000000000408f280000000000408f200000000000408f180000000000408f100000000000408f080000000000408f00;
  0x000000000040c38b800000000040c38b000000000040c38a800000000040c38a000000000040c389800000000040c389000000000040c388800000000040c388;
  0x000000000040c38f800000000040c38f000000000040c38e800000000040c38e000000000040c38d800000000040c38d000000000040c38c800000000040c38c;
  0x000000000040c393800000000040c393000000000040c392800000000040c392000000000040c391800000000040c391000000000040c390800000000040c390;
  0x000000000040c397800000000040c397000000000040c396800000000040c396000000000040c395800000000040c395000000000040c394800000000040c394;
  0x000000000040c39b800000000040c39b000000000040c39a800000000040c39a000000000040c399800000000040c399000000000040c398800000000040c398;
  0x000000000040c39f800000000040c39f000000000040c39e800000000040c39e000000000040c39d800000000040c39d000000000040c39c800000000040c39c;
  0x000000000040c3a3800000000040c3a3000000000040c3a2800000000040c3a2000000000040c3a1800000000040c3a1000000000040c3a0800000000040c3a0;
  0x000000000040c3a7800000000040c3a7000000000040c3a6800000000040c3a6000000000040c3a5800000000040c3a5000000000040c3a4800000000040c3a4;
  0x000000000040c3ab800000000040c3ab000000000040c3aa800000000040c3aa000000000040c3a9800000000040c3a9000000000040c3a8800000000040c3a8;
  0x000000000040c3af800000000040c3af000000000040c3ae800000000040c3ae000000000040c3ad800000000040c3ad000000000040c3ac800000000040c3ac;
  0x000000000040c3b3800000000040c3b3000000000040c3b2800000000040c3b2000000000040c3b1800000000040c3b1000000000040c3b0800000000040c3b0;
  0x000000000040c3b7800000000040c3b7000000000040c3b6800000000040c3b6000000000040c3b5800000000040c3b5000000000040c3b4800000000040c3b4;
  0x000000000040c3bb800000000040c3bb000000000040c3ba800000000040c3ba000000000040c3b9800000000040c3b9000000000040c3b8800000000040c3b8;
  0x000000000040c3bf800000000040c3bf000000000040c3be800000000040c3be000000000040c3bd800000000040c3bd000000000040c3bc800000000040c3bc;
  0x000000000040c3c3800000000040c3c3000000000040c3c2800000000040c3c2000000000040c3c1800000000040c3c1000000000040c3c0800000000040c3c0;
  0x000000000040c3c7800000000040c3c7000000000040c3c6800000000040c3c6000000000040c3c5800000000040c3c5000000000040c3c4800000000040c3c4;
  0x000000000040c3cb800000000040c3cb000000000040c3ca800000000040c3ca000000000040c3c9800000000040c3c9000000000040c3c8800000000040c3c8;
  0x000000000040c3cf800000000040c3cf000000000040c3ce800000000040c3ce000000000040c3cd800000000040c3cd000000000040c3cc800000000040c3cc;
  0x000000000040c3d3800000000040c3d3000000000040c3d2800000000040c3d2000000000040c3d1800000000040c3d1000000000040c3d0800000000040c3d0;
  0x000000000040c3d7800000000040c3d7000000000040c3d6800000000040c3d6000000000040c3d5800000000040c3d5000000000040c3d4800000000040c3d4;
  0x000000000040c3db800000000040c3db000000000040c3da800000000040c3da000000000040c3d9800000000040c3d9000000000040c3d8800000000040c3d8;
  0x000000000040c3df800000000040c3df000000000040c3de800000000040c3de000000000040c3dd800000000040c3dd000000000040c3dc800000000040c3dc;
  0x000000000040c3e3800000000040c3e3000000000040c3e2800000000040c3e2000000000040c3e1800000000040c3e1000000000040c3e0800000000040c3e0;
  0x000000000040c3e7800000000040c3e7000000000040c3e6800000000040c3e6000000000040c3e5800000000040c3e5000000000040c3e4800000000040c3e4;
  0x000000000040c3eb800000000040c3eb000000000040c3ea800000000040c3ea000000000040c3e9800000000040c3e9000000000040c3e8800000000040c3e8;
  0x000000000040c3ef800000000040c3ef000000000040c3ee800000000040c3ee000000000040c3ed800000000040c3ed000000000040c3ec800000000040c3ec;
  0x000000000040c3f3800000000040c3f3000000000040c3f2800000000040c3f2000000000040c3f1800000000040c3f1000000000040c3f0800000000040c3f0;
  0x000000000040c3f7800000000040c3f7000000000040c3f6800000000040c3f6000000000040c3f5800000000040c3f5000000000040c3f4800000000040c3f4;
  0x000000000040c3fb800000000040c3fb000000000040c3fa800000000040c3fa000000000040c3f9800000000040c3f9000000000040c3f8800000000040c3f8;
  0x000000000040c3ff800000000040c3ff000000000040c3fe800000000040c3fe000000000040c3fd800000000040c3fd000000000040c3fc800000000040c3fc;
  0x000000000040c403800000000040c403000000000040c402800000000040c402000000000040c401800000000040c401000000000040c400800000000040c400;
  0x000000000040c407800000000040c407000000000040c406800000000040c406000000000040c405800000000040c405000000000040c404800000000040c404;
  0x000000000040c40b800000000040c40b000000000040c40a800000000040c40a000000000040c409800000000040c409000000000040c408800000000040c408;
  0x000000000040c40f800000000040c40f000000000040c40e800000000040c40e000000000040c40d800000000040c40d000000000040c40c800000000040c40c;
  0x000000000040c413800000000040c413000000000040c412800000000040c412000000000040c411800000000040c411000000000040c410800000000040c410;
  0x000000000040c417800000000040c417000000000040c416800000000040c416000000000040c415800000000040c415000000000040c414800000000040c414;
  0x000000000040c41b800000000040c41b000000000040c41a800000000040c41a000000000040c419800000000040c419000000000040c418800000000040c418;
  0x000000000040c41f800000000040c41f000000000040c41e800000000040c41e000000000040c41d800000000040c41d000000000040c41c800000000040c41c;
  0x000000000040c423800000000040c423000000000040c422800000000040c422000000000040c421800000000040c421000000000040c420800000000040c420;
  0x000000000040c427800000000040c427000000000040c426800000000040c426000000000040c425800000000040c425000000000040c424800000000040c424;
  0x000000000040c42b800000000040c42b000000000040c42a800000000040c42a000000000040c429800000000040c429000000000040c428800000000040c428;
  0x000000000040c42f800000000040c42f000000000040c42e800000000040c42e000000000040c42d800000000040c42d000000000040c42c800000000040c42c;
  0x000000000040c433800000000040c433000000000040c432800000000040c432000000000040c431800000000040c431000000000040c430800000000040c430;
  0x000000000040c437800000000040c437000000000040c436800000000040c436000000000040c435800000000040c435000000000040c434800000000040c434;
  0x000000000040c43b800000000040c43b000000000040c43a800000000040c43a000000000040c439800000000040c439000000000040c438800000000040c438;
  0x000000000040c43f800000000040c43f000000000040c43e800000000040c43e000000000040c43d800000000040c43d000000000040c43c800000000040c43c;
  0x000000000040c443800000000040c443000000000040c442800000000040c442000000000040c441800000000040c441000000000040c440800000000040c440;
  0x000000000040c447800000000040c447000000000040c446800000000040c446000000000040c445800000000040c445000000000040c444800000000040c444;
  0x000000000040c44b800000000040c44b000000000040c44a800000000040c44a000000000040c449800000000040c449000000000040c448800000000040c448;
  0x000000000040c44f800000000040c44f000000000040c44e800000000040c44e000000000040c44d800000000040c44d000000000040c44c800000000040c44c;
  0x000000000040c453800000000040c453000000000040c452800000000040c452000000000040c451800000000040c451000000000040c450800000000040c450;
  0x000000000040c457800000000040c457000000000040c456800000000040c456000000000040c455800000000040c455000000000040c454800000000040c454;
  0x000000000040c45b800000000040c45b000000000040c45a800000000040c45a000000000040c459800000000040c459000000000040c458800000000040c458;
  0x000000000040c45f800000000040c45f000000000040c45e800000000040c45e000000000040c45d800000000040c45d000000000040c45c800000000040c45c;
  0x000000000040c463800000000040c463000000000040c462800000000040c462000000000040c461800000000040c461000000000040c460800000000040c460;
  0x000000000040c467800000000040c467000000000040c466800000000040c466000000000040c465800000000040c465000000000040c464800000000040c464;
  0x000000000040c46b800000000040c46b000000000040c46a800000000040c46a000000000040c469800000000040c469000000000040c468800000000040c468;
  0x000000000040c46f800000000040c46f000000000040c46e800000000040c46e000000000040c46d800000000040c46d000000000040c46c800000000040c46c;
  0x000000000040c473800000000040c473000000000040c472800000000040c472000000000040c471800000000040c471000000000040c470800000000040c470;
  0x000000000040c477800000000040c477000000000040c476800000000040c476000000000040c475800000000040c475000000000040c474800000000040c474;
  0x000000000040c47b800000000040c47b000000000040c47a800000000040c47a000000000040c479800000000040c479000000000040c478800000000040c478;
  0x000000000040c47f800000000040c47f000000000040c47e800000000040c47e000000000040c47d800000000040c47d000000000040c47c800000000040c47c;
  0x000000000040c483800000000040c483000000000040c482800000000040c482000000000040c481800000000040c481000000000040c480800000000040c480;
  0x000000000040c487800000000040c487000000000040c486800000000040c486000000000040c485800000000040c485000000000040c484800000000040c484;
  0x000000000040c48b800000000040c48b000000000040c48a800000000040c48a000000000040c489800000000040c489000000000040c488800000000040c488;
  0x000000000040c48f800000000040c48f000000000040c48e800000000040c48e000000000040c48d800000000040c48d000000000040c48c800000000040c48c;
  0x000000000040c493800000000040c493000000000040c492800000000040c492000000000040c491800000000040c491000000000040c490800000000040c490;
  0x000000000040c497800000000040c497000000000040c496800000000040c496000000000040c495800000000040c495000000000040c494800000000040c494;
  0x000000000040c49b800000000040c49b000000000040c49a800000000040c49a000000000040c499800000000040c499000000000040c498800000000040c498;
  0x000000000040c49f800000000040c49f000000000040c49e800000000040c49e000000000040c49d800000000040c49d000000000040c49c800000000040c49c;
  0x000000000040c4a3800000000040c4a3000000000040c4a2800000000040c4a2000000000040c4a1800000000040c4a1000000000040c4a0800000000040c4a0;
  0x000000000040c4a7800000000040c4a7000000000040c4a6800000000040c4a6000000000040c4a5800000000040c4a5000000000040c4a4800000000040c4a4;
  0x000000000040c4ab800000000040c4ab000000000040c4aa800000000040c4aa000000000040c4a9800000000040c4a9000000000040c4a8800000000040c4a8;
  0x000000000040c4af800000000040c4af000000000040c4ae800000000040c4ae000000000040c4ad800000000040c4ad000000000040c4ac800000000040c4ac;
  0x000000000040c4b3800000000040c4b3000000000040c4b2800000000040c4b2000000000040c4b1800000000040c4b1000000000040c4b0800000000040c4b0;
  0x000000000040c4b7800000000040c4b7000000000040c4b6800000000040c4b6000000000040c4b5800000000040c4b5000000000040c4b4800000000040c4b4;
  0x000000000040c4bb800000000040c4bb000000000040c4ba800000000040c4ba000000000040c4b9800000000040c4b9000000000040c4b8800000000040c4b8;
  0x000000000040c4bf800000000040c4bf000000000040c4be800000000040c4be000000000040c4bd800000000040c4bd000000000040c4bc800000000040c4bc;
  0x000000000040c4c3800000000040c4c3000000000040c4c2800000000040c4c2000000000040c4c1800000000040c4c1000000000040c4c0800000000040c4c0;
  0x000000000040c4c7800000000040c4c7000000000040c4c6800000000040c4c6000000000040c4c5800000000040c4c5000000000040c4c4800000000040c4c4;
  0x000000000040c4cb800000000040c4cb000000000040c4ca800000000040c4ca000000000040c4c9800000000040c4c9000000000040c4c8800000000040c4c8;
  0x000000000040c4cf800000000040c4cf000000000040c4ce800000000040c4ce000000000040c4cd800000000040c4cd000000000040c4cc800000000040c4cc;
  0x000000000040c4d3800000000040c4d3000000000040c4d2800000000040c4d2000000000040c4d1800000000040c4d1000000000040c4d0800000000040c4d0;
  0x000000000040c4d7800000000040c4d7000000000040c4d6800000000040c4d6000000000040c4d5800000000040c4d5000000000040c4d4800000000040c4d4;
  0x000000000040c4db800000000040c4db000000000040c4da800000000040c4da000000000040c4d9800000000040c4d9000000000040c4d8800000000040c4d8;
  0x000000000040c4df800000000040c4df000000000040c4de800000000040c4de000000000040c4dd800000000040c4dd000000000040c4dc800000000040c4dc;
  0x000000000040c4e3800000000040c4e3000000000040c4e2800000000040c4e2000000000040c4e1800000000040c4e1000000000040c4e0800000000040c4e0;
  0x000000000040c4e7800000000040c4e7000000000040c4e6800000000040c4e6000000000040c4e5800000000040c4e5000000000040c4e4800000000040c4e4;
  0x000000000040c4eb800000000040c4eb000000000040c4ea800000000040c4ea000000000040c4e9800000000040c4e9000000000040c4e8800000000040c4e8;
  0x000000000040c4ef800000000040c4ef000000000040c4ee800000000040c4ee000000000040c4ed800000000040c4ed000000000040c4ec800000000040c4ec;
  0x000000000040c4f3800000000040c4f3000000000040c4f2800000000040c4f2000000000040c4f1800000000040c4f1000000000040c4f0800000000040c4f0;
  0x000000000040c4f7800000000040c4f7000000000040c4f6800000000040c4f6000000000040c4f5800000000040c4f5000000000040c4f4800000000040c4f4;
  0x000000000040c4fb800000000040c4fb000000000040c4fa800000000040c4fa000000000040c4f9800000000040c4f9000000000040c4f8800000000040c4f8;
  0x000000000040c4ff800000000040c4ff000000000040c4fe800000000040c4fe000000000040c4fd800000000040c4fd000000000040c4fc800000000040c4fc;
  0x000000000040c503800000000040c503000000000040c502800000000040c502000000000040c501800000000040c501000000000040c500800000000040c500;
  0x000000000040c507800000000040c507000000000040c506800000000040c506000000000040c505800000000040c505000000000040c504800000000040c504;
  0x000000000040c50b800000000040c50b000000000040c50a800000000040c50a000000000040c509800000000040c509000000000040c508800000000040c508;
  0x000000000040c50f800000000040c50f000000000040c50e800000000040c50e000000000040c50d800000000040c50d000000000040c50c800000000040c50c;
  0x000000000040c513800000000040c513000000000040c512800000000040c512000000000040c511800000000040c511000000000040c510800000000040c510;
  0x000000000040c517800000000040c517000000000040c516800000000040c516000000000040c515800000000040c515000000000040c514800000000040c514;
  0x000000000040c51b800000000040c51b000000000040c51a800000000040c51a000000000040c519800000000040c519000000000040c518800000000040c518;
  0x000000000040c51f800000000040c51f000000000040c51e800000000040c51e000000000040c51d800000000040c51d000000000040c51c800000000040c51c;
  0x000000000040c523800000000040c523000000000040c522800000000040c522000000000040c521800000000040c521000000000040c520800000000040c520;
  0x000000000040c527800000000040c527000000000040c526800000000040c526000000000040c525800000000040c525000000000040c524800000000040c524;
  0x000000000040c52b800000000040c52b000000000040c52a800000000040c52a000000000040c529800000000040c529000000000040c528800000000040c528;
  0x000000000040c52f800000000040c52f000000000040c52e800000000040c52e000000000040c52d800000000040c52d000000000040c52c800000000040c52c;
  0x000000000040c533800000000040c533000000000040c532800000000040c532000000000040c531800000000040c531000000000040c530800000000040c530;
  0x000000000040c537800000000040c537000000000040c536800000000040c536000000000040c535800000000040c535000000000040c534800000000040c534;
  0x000000000040c53b800000000040c53b000000000040c53a800000000040c53a000000000040c539800000000040c539000000000040c538800000000040c538;
  0x000000000040c53f800000000040c53f000000000040c53e800000000040c53e000000000040c53d800000000040c53d000000000040c53c800000000040c53c;
  0x000000000040c543800000000040c543000000000040c542800000000040c542000000000040c541800000000040c541000000000040c540800000000040c540;
  0x000000000040c547800000000040c547000000000040c546800000000040c546000000000040c545800000000040c545000000000040c544800000000040c544;
  0x000000000040c54b800000000040c54b000000000040c54a800000000040c54a000000000040c549800000000040c549000000000040c548800000000040c548;
  0x000000000040c54f800000000040c54f000000000040c54e800000000040c54e000000000040c54d800000000040c54d000000000040c54c800000000040c54c;
  0x000000000040c553800000000040c553000000000040c552800000000040c552000000000040c551800000000040c551000000000040c550800000000040c550;
  0x000000000040c557800000000040c557000000000040c556800000000040c556000000000040c555800000000040c555000000000040c554800000000040c554;
  0x000000000040c55b800000000040c55b000000000040c55a800000000040c55a000000000040c559800000000040c559000000000040c558800000000040c558;
  0x000000000040c55f800000000040c55f000000000040c55e800000000040c55e000000000040c55d800000000040c55d000000000040c55c800000000040c55c;
  0x000000000040c563800000000040c563000000000040c562800000000040c562000000000040c561800000000040c561000000000040c560800000000040c560;
  0x000000000040c567800000000040c567000000000040c566800000000040c566000000000040c565800000000040c565000000000040c564800000000040c564;
  0x000000000040c56b800000000040c56b000000000040c56a800000000040c56a000000000040c569800000000040c569000000000040c568800000000040c568;
  0x000000000040c56f800000000040c56f000000000040c56e800000000040c56e000000000040c56d800000000040c56d000000000040c56c800000000040c56c;
  0x000000000040c573800000000040c573000000000040c572800000000040c572000000000040c571800000000040c571000000000040c570800000000040c570;
  0x000000000040c577800000000040c577000000000040c576800000000040c576000000000040c575800000000040c575000000000040c574800000000040c574;
  0x000000000040c57b800000000040c57b000000000040c57a800000000040c57a000000000040c579800000000040c579000000000040c578800000000040c578;
  0x000000000040d389c00000000040d389800000000040d389400000000040d389000000000040d388c00000000040d388800000000040d388400000000040d388;
  0x000000000040d38bc00000000040d38b800000000040d38b400000000040d38b000000000040d38ac00000000040d38a800000000040d38a400000000040d38a;
  0x000000000040d38dc00000000040d38d800000000040d38d400000000040d38d000000000040d38cc00000000040d38c800000000040d38c400000000040d38c;
  0x000000000040d38fc00000000040d38f800000000040d38f400000000040d38f000000000040d38ec00000000040d38e800000000040d38e400000000040d38e;
  0x000000000040d391c00000000040d391800000000040d391400000000040d391000000000040d390c00000000040d390800000000040d390400000000040d390;
  0x000000000040d393c00000000040d393800000000040d393400000000040d393000000000040d392c00000000040d392800000000040d392400000000040d392;
  0x000000000040d395c00000000040d395800000000040d395400000000040d395000000000040d394c00000000040d394800000000040d394400000000040d394;
  0x000000000040d397c00000000040d397800000000040d397400000000040d397000000000040d396c00000000040d396800000000040d396400000000040d396;
  0x000000000040d399c00000000040d399800000000040d399400000000040d399000000000040d398c00000000040d398800000000040d398400000000040d398;
  0x000000000040d39bc00000000040d39b800000000040d39b400000000040d39b000000000040d39ac00000000040d39a800000000040d39a400000000040d39a;
  0x000000000040d39dc00000000040d39d800000000040d39d400000000040d39d000000000040d39cc00000000040d39c800000000040d39c400000000040d39c;
  0x000000000040d39fc00000000040d39f800000000040d39f400000000040d39f000000000040d39ec00000000040d39e800000000040d39e400000000040d39e;
  0x000000000040d3a1c00000000040d3a1800000000040d3a1400000000040d3a1000000000040d3a0c00000000040d3a0800000000040d3a0400000000040d3a0;
  0x000000000040d3a3c00000000040d3a3800000000040d3a3400000000040d3a3000000000040d3a2c00000000040d3a2800000000040d3a2400000000040d3a2;
  0x000000000040d3a5c00000000040d3a5800000000040d3a5400000000040d3a5000000000040d3a4c00000000040d3a4800000000040d3a4400000000040d3a4;
  0x000000000040d3a7c00000000040d3a7800000000040d3a7400000000040d3a7000000000040d3a6c00000000040d3a6800000000040d3a6400000000040d3a6;
  0x000000000040d3a9c00000000040d3a9800000000040d3a9400000000040d3a9000000000040d3a8c00000000040d3a8800000000040d3a8400000000040d3a8;
  0x000000000040d3abc00000000040d3ab800000000040d3ab400000000040d3ab000000000040d3aac00000000040d3aa800000000040d3aa400000000040d3aa;
  0x000000000040d3adc00000000040d3ad800000000040d3ad400000000040d3ad000000000040d3acc00000000040d3ac800000000040d3ac400000000040d3ac;
  0x000000000040d3afc00000000040d3af800000000040d3af400000000040d3af000000000040d3aec00000000040d3ae800000000040d3ae400000000040d3ae;
  0x000000000040d3b1c00000000040d3b1800000000040d3b1400000000040d3b1000000000040d3b0c00000000040d3b0800000000040d3b0400000000040d3b0;
  0x000000000040d3b3c00000000040d3b3800000000040d3b3400000000040d3b3000000000040d3b2c00000000040d3b2800000000040d3b2400000000040d3b2;
  0x000000000040d3b5c00000000040d3b5800000000040d3b5400000000040d3b5000000000040d3b4c00000000040d3b4800000000040d3b4400000000040d3b4;
  0x000000000040d3b7c00000000040d3b7800000000040d3b7400000000040d3b7000000000040d3b6c00000000040d3b6800000000040d3b6400000000040d3b6;
  0x000000000040d3b9c00000000040d3b9800000000040d3b9400000000040d3b9000000000040d3b8c00000000040d3b8800000000040d3b8400000000040d3b8;
  0x000000000040d3bbc00000000040d3bb800000000040d3bb400000000040d3bb000000000040d3bac00000000040d3ba800000000040d3ba400000000040d3ba;
  0x000000000040d3bdc00000000040d3bd800000000040d3bd400000000040d3bd000000000040d3bcc00000000040d3bc800000000040d3bc400000000040d3bc;
  0x000000000040d3bfc00000000040d3bf800000000040d3bf400000000040d3bf000000000040d3bec00000000040d3be800000000040d3be400000000040d3be;
  0x000000000040d3c1c00000000040d3c1800000000040d3c1400000000040d3c1000000000040d3c0c00000000040d3c0800000000040d3c0400000000040d3c0;
  0x000000000040d3c3c00000000040d3c3800000000040d3c3400000000040d3c3000000000040d3c2c00000000040d3c2800000000040d3c2400000000040d3c2;
  0x000000000040d3c5c00000000040d3c5800000000040d3c5400000000040d3c5000000000040d3c4c00000000040d3c4800000000040d3c4400000000040d3c4;
  0x000000000040d3c7c00000000040d3c7800000000040d3c7400000000040d3c7000000000040d3c6c00000000040d3c6800000000040d3c6400000000040d3c6;
  0x000000000040d3c9c00000000040d3c9800000000040d3c9400000000040d3c9000000000040d3c8c00000000040d3c8800000000040d3c8400000000040d3c8;
  0x000000000040d3cbc00000000040d3cb800000000040d3cb400000000040d3cb000000000040d3cac00000000040d3ca800000000040d3ca400000000040d3ca;
  0x000000000040d3cdc00000000040d3cd800000000040d3cd400000000040d3cd000000000040d3ccc00000000040d3cc800000000040d3cc400000000040d3cc;
  0x000000000040d3cfc00000000040d3cf800000000040d3cf400000000040d3cf000000000040d3cec00000000040d3ce800000000040d3ce400000000040d3ce;
  0x000000000040d3d1c00000000040d3d1800000000040d3d1400000000040d3d1000000000040d3d0c00000000040d3d0800000000040d3d0400000000040d3d0;
  0x000000000040d3d3c00000000040d3d3800000000040d3d3400000000040d3d3000000000040d3d2c00000000040d3d2800000000040d3d2400000000040d3d2;
  0x000000000040d3d5c00000000040d3d5800000000040d3d5400000000040d3d5000000000040d3d4c00000000040d3d4800000000040d3d4400000000040d3d4;
  0x000000000040d3d7c00000000040d3d7800000000040d3d7400000000040d3d7000000000040d3d6c00000000040d3d6800000000040d3d6400000000040d3d6;
  0x000000000040d3d9c00000000040d3d9800000000040d3d9400000000040d3d9000000000040d3d8c00000000040d3d8800000000040d3d8400000000040d3d8;
  0x000000000040d3dbc00000000040d3db800000000040d3db400000000040d3db000000000040d3dac00000000040d3da800000000040d3da400000000040d3da;
  0x000000000040d3ddc00000000040d3dd800000000040d3dd400000000040d3dd000000000040d3dcc00000000040d3dc800000000040d3dc400000000040d3dc;
  0x000000000040d3dfc00000000040d3df800000000040d3df400000000040d3df000000000040d3dec00000000040d3de800000000040d3de400000000040d3de;
  0x000000000040d3e1c00000000040d3e1800000000040d3e1400000000040d3e1000000000040d3e0c00000000040d3e0800000000040d3e0400000000040d3e0;
  0x000000000040d3e3c00000000040d3e3800000000040d3e3400000000040d3e3000000000040d3e2c00000000040d3e2800000000040d3e2400000000040d3e2;
  0x000000000040d3e5c00000000040d3e5800000000040d3e5400000000040d3e5000000000040d3e4c00000000040d3e4800000000040d3e4400000000040d3e4;
  0x000000000040d3e7c00000000040d3e7800000000040d3e7400000000040d3e7000000000040d3e6c00000000040d3e6800000000040d3e6400000000040d3e6;
  0x000000000040d3e9c00000000040d3e9800000000040d3e9400000000040d3e9000000000040d3e8c00000000040d3e8800000000040d3e8400000000040d3e8;
  0x000000000040d3ebc00000000040d3eb800000000040d3eb400000000040d3eb000000000040d3eac00000000040d3ea800000000040d3ea400000000040d3ea;
  0x000000000040d3edc00000000040d3ed800000000040d3ed400000000040d3ed000000000040d3ecc00000000040d3ec800000000040d3ec400000000040d3ec;
  0x000000000040d3efc00000000040d3ef800000000040d3ef400000000040d3ef000000000040d3eec00000000040d3ee800000000040d3ee400000000040d3ee;
  0x000000000040d3f1c00000000040d3f1800000000040d3f1400000000040d3f1000000000040d3f0c00000000040d3f0800000000040d3f0400000000040d3f0;
  0x000000000040d3f3c00000000040d3f3800000000040d3f3400000000040d3f3000000000040d3f2c00000000040d3f2800000000040d3f2400000000040d3f2;
  0x000000000040d3f5c00000000040d3f5800000000040d3f5400000000040d3f5000000000040d3f4c00000000040d3f4800000000040d3f4400000000040d3f4;
  0x000000000040d3f7c00000000040d3f7800000000040d3f7400000000040d3f7000000000040d3f6c00000000040d3f6800000000040d3f6400000000040d3f6;
  0x000000000040d3f9c00000000040d3f9800000000040d3f9400000000040d3f9000000000040d3f8c00000000040d3f8800000000040d3f8400000000040d3f8;
  0x000000000040d3fbc00000000040d3fb800000000040d3fb400000000040d3fb000000000040d3fac00000000040d3fa800000000040d3fa400000000040d3fa;
  0x000000000040d3fdc00000000040d3fd800000000040d3fd400000000040d3fd000000000040d3fcc00000000040d3fc800000000040d3fc400000000040d3fc;
  0x000000000040d3ffc00000000040d3ff800000000040d3ff400000000040d3ff000000000040d3fec00000000040d3fe800000000040d3fe400000000040d3fe;
  0x000000000040d401c00000000040d401800000000040d401400000000040d401000000000040d400c00000000040d400800000000040d400400000000040d400;
  0x000000000040d403c00000000040d403800000000040d403400000000040d403000000000040d402c00000000040d402800000000040d402400000000040d402;
  0x000000000040d405c00000000040d405800000000040d405400000000040d405000000000040d404c00000000040d404800000000040d404400000000040d404;
  0x000000000040d407c00000000040d407800000000040d407400000000040d407000000000040d406c00000000040d406800000000040d406400000000040d406;
  0x000000000040d409c00000000040d409800000000040d409400000000040d409000000000040d408c00000000040d408800000000040d408400000000040d408;
  0x000000000040d40bc00000000040d40b800000000040d40b400000000040d40b000000000040d40ac00000000040d40a800000000040d40a400000000040d40a;
  0x000000000040d40dc00000000040d40d800000000040d40d400000000040d40d000000000040d40cc00000000040d40c800000000040d40c400000000040d40c;
  0x000000000040d40fc00000000040d40f800000000040d40f400000000040d40f000000000040d40ec00000000040d40e800000000040d40e400000000040d40e;
  0x000000000040d411c00000000040d411800000000040d411400000000040d411000000000040d410c00000000040d410800000000040d410400000000040d410;
  0x000000000040d413c00000000040d413800000000040d413400000000040d413000000000040d412c00000000040d412800000000040d412400000000040d412;
  0x000000000040d415c00000000040d415800000000040d415400000000040d415000000000040d414c00000000040d414800000000040d414400000000040d414;
  0x000000000040d417c00000000040d417800000000040d417400000000040d417000000000040d416c00000000040d416800000000040d416400000000040d416;
  0x000000000040d419c00000000040d419800000000040d419400000000040d419000000000040d418c00000000040d418800000000040d418400000000040d418;
  0x000000000040d41bc00000000040d41b800000000040d41b400000000040d41b000000000040d41ac00000000040d41a800000000040d41a400000000040d41a;
  0x000000000040d41dc00000000040d41d800000000040d41d400000000040d41d000000000040d41cc00000000040d41c800000000040d41c400000000040d41c;
  0x000000000040d41fc00000000040d41f800000000040d41f400000000040d41f000000000040d41ec00000000040d41e800000000040d41e400000000040d41e;
  0x000000000040d421c00000000040d421800000000040d421400000000040d421000000000040d420c00000000040d420800000000040d420400000000040d420;
  0x000000000040d423c00000000040d423800000000040d423400000000040d423000000000040d422c00000000040d422800000000040d422400000000040d422;
  0x000000000040d425c00000000040d425800000000040d425400000000040d425000000000040d424c00000000040d424800000000040d424400000000040d424;
  0x000000000040d427c00000000040d427800000000040d427400000000040d427000000000040d426c00000000040d426800000000040d426400000000040d426;
  0x000000000040d429c00000000040d429800000000040d429400000000040d429000000000040d428c00000000040d428800000000040d428400000000040d428;
  0x000000000040d42bc00000000040d42b800000000040d42b400000000040d42b000000000040d42ac00000000040d42a800000000040d42a400000000040d42a;
  0x000000000040d42dc00000000040d42d800000000040d42d400000000040d42d000000000040d42cc00000000040d42c800000000040d42c400000000040d42c;
  0x000000000040d42fc00000000040d42f800000000040d42f400000000040d42f000000000040d42ec00000000040d42e800000000040d42e400000000040d42e;
  0x000000000040d431c00000000040d431800000000040d431400000000040d431000000000040d430c00000000040d430800000000040d430400000000040d430;
  0x000000000040d433c00000000040d433800000000040d433400000000040d433000000000040d432c00000000040d432800000000040d432400000000040d432;
  0x000000000040d435c00000000040d435800000000040d435400000000040d435000000000040d434c00000000040d434800000000040d434400000000040d434;
  0x000000000040d437c00000000040d437800000000040d437400000000040d437000000000040d436c00000000040d436800000000040d436400000000040d436;
  0x000000000040d439c00000000040d439800000000040d439400000000040d439000000000040d438c00000000040d438800000000040d438400000000040d438;
  0x000000000040d43bc00000000040d43b800000000040d43b400000000040d43b000000000040d43ac00000000040d43a800000000040d43a400000000040d43a;
  0x000000000040d43dc00000000040d43d800000000040d43d400000000040d43d000000000040d43cc00000000040d43c800000000040d43c400000000040d43c;
  0x000000000040d43fc00000000040d43f800000000040d43f400000000040d43f000000000040d43ec00000000040d43e800000000040d43e400000000040d43e;
  0x000000000040d441c00000000040d441800000000040d441400000000040d441000000000040d440c00000000040d440800000000040d440400000000040d440;
  0x000000000040d443c00000000040d443800000000040d443400000000040d443000000000040d442c00000000040d442800000000040d442400000000040d442;
  0x000000000040d445c00000000040d445800000000040d445400000000040d445000000000040d444c00000000040d444800000000040d444400000000040d444;
  0x000000000040d447c00000000040d447800000000040d447400000000040d447000000000040d446c00000000040d446800000000040d446400000000040d446;
  0x000000000040d449c00000000040d449800000000040d449400000000040d449000000000040d448c00000000040d448800000000040d448400000000040d448;
  0x000000000040d44bc00000000040d44b800000000040d44b400000000040d44b000000000040d44ac00000000040d44a800000000040d44a400000000040d44a;
  0x000000000040d44dc00000000040d44d800000000040d44d400000000040d44d000000000040d44cc00000000040d44c800000000040d44c400000000040d44c;
  0x000000000040d44fc00000000040d44f800000000040d44f400000000040d44f000000000040d44ec00000000040d44e800000000040d44e400000000040d44e;
  0x000000000040d451c00000000040d451800000000040d451400000000040d451000000000040d450c00000000040d450800000000040d450400000000040d450;
  0x000000000040d453c00000000040d453800000000040d453400000000040d453000000000040d452c00000000040d452800000000040d452400000000040d452;
  0x000000000040d455c00000000040d455800000000040d455400000000040d455000000000040d454c00000000040d454800000000040d454400000000040d454;
  0x000000000040d457c00000000040d457800000000040d457400000000040d457000000000040d456c00000000040d456800000000040d456400000000040d456;
  0x000000000040d459c00000000040d459800000000040d459400000000040d459000000000040d458c00000000040d458800000000040d458400000000040d458;
  0x000000000040d45bc00000000040d45b800000000040d45b400000000040d45b000000000040d45ac00000000040d45a800000000040d45a400000000040d45a;
  0x000000000040d45dc00000000040d45d800000000040d45d400000000040d45d000000000040d45cc00000000040d45c800000000040d45c400000000040d45c;
  0x000000000040d45fc00000000040d45f800000000040d45f400000000040d45f000000000040d45ec00000000040d45e800000000040d45e400000000040d45e;
  0x000000000040d461c00000000040d461800000000040d461400000000040d461000000000040d460c00000000040d460800000000040d460400000000040d460;
  0x000000000040d463c00000000040d463800000000040d463400000000040d463000000000040d462c00000000040d462800000000040d462400000000040d462;
  0x000000000040d465c00000000040d465800000000040d465400000000040d465000000000040d464c00000000040d464800000000040d464400000000040d464;
  0x000000000040d467c00000000040d467800000000040d467400000000040d467000000000040d466c00000000040d466800000000040d466400000000040d466;
  0x000000000040d469c00000000040d469800000000040d469400000000040d469000000000040d468c00000000040d468800000000040d468400000000040d468;
  0x000000000040d46bc00000000040d46b800000000040d46b400000000040d46b000000000040d46ac00000000040d46a800000000040d46a400000000040d46a;
  0x000000000040d46dc00000000040d46d800000000040d46d400000000040d46d000000000040d46cc00000000040d46c800000000040d46c400000000040d46c;
  0x000000000040d46fc00000000040d46f800000000040d46f400000000040d46f000000000040d46ec00000000040d46e800000000040d46e400000000040d46e;
  0x000000000040d471c00000000040d471800000000040d471400000000040d471000000000040d470c00000000040d470800000000040d470400000000040d470;
  0x000000000040d473c00000000040d473800000000040d473400000000040d473000000000040d472c00000000040d472800000000040d472400000000040d472;
  0x000000000040d475c00000000040d475800000000040d475400000000040d475000000000040d474c00000000040d474800000000040d474400000000040d474;
  0x000000000040d477c00000000040d477800000000040d477400000000040d477000000000040d476c00000000040d476800000000040d476400000000040d476;
  0x000000000040d479c00000000040d479800000000040d479400000000040d479000000000040d478c00000000040d478800000000040d478400000000040d478;
  0x000000000040d47bc00000000040d47b800000000040d47b400000000040d47b000000000040d47ac00000000040d47a800000000040d47a400000000040d47a;
  0x000000000040d47dc00000000040d47d800000000040d47d400000000040d47d000000000040d47cc00000000040d47c800000000040d47c400000000040d47c;
  0x000000000040d47fc00000000040d47f800000000040d47f400000000040d47f000000000040d47ec00000000040d47e800000000040d47e400000000040d47e;
  0x0e6d53445440d481c00000000040d481800000000040d481400000000040d481000000000040d480c00000000040d480800000000040d480400000000040d480;
  0x0001f4000000010000000a0000001427346863272f27657275746375727473272f000000120000000300000000000000dc0000000000002fbc00001269000000;
  0x00000a0000001427356863272f27657275746375727473272f0000001200000000000000036e6d756c6f4379617272415f494e0000000e000000010000000000;
  0x366863272f27657275746375727473272f0000001200000001000000036e6d756c6f4379617272415f494e0000000e0000000100000000000001f40000000100;
  0x400000000040dd4c000000000000000002000000036e6d756c6f4379617272415f494e0000000e0000000100000000000001f4000000010000000a0000001427;
  0x400000000040dd4e000000000040dd4dc00000000040dd4d800000000040dd4d400000000040dd4d000000000040dd4cc00000000040dd4c800000000040dd4c;
  0x400000000040dd50000000000040dd4fc00000000040dd4f800000000040dd4f400000000040dd4f000000000040dd4ec00000000040dd4e800000000040dd4e;
  0x400000000040dd52000000000040dd51c00000000040dd51800000000040dd51400000000040dd51000000000040dd50c00000000040dd50800000000040dd50;
  0x400000000040dd54000000000040dd53c00000000040dd53800000000040dd53400000000040dd53000000000040dd52c00000000040dd52800000000040dd52;
  0x400000000040dd56000000000040dd55c00000000040dd55800000000040dd55400000000040dd55000000000040dd54c00000000040dd54800000000040dd54;
  0x400000000040dd58000000000040dd57c00000000040dd57800000000040dd57400000000040dd57000000000040dd56c00000000040dd56800000000040dd56;
  0x400000000040dd5a000000000040dd59c00000000040dd59800000000040dd59400000000040dd59000000000040dd58c00000000040dd58800000000040dd58;
  0x400000000040dd5c000000000040dd5bc00000000040dd5b800000000040dd5b400000000040dd5b000000000040dd5ac00000000040dd5a800000000040dd5a;
  0x400000000040dd5e000000000040dd5dc00000000040dd5d800000000040dd5d400000000040dd5d000000000040dd5cc00000000040dd5c800000000040dd5c;
  0x400000000040dd60000000000040dd5fc00000000040dd5f800000000040dd5f400000000040dd5f000000000040dd5ec00000000040dd5e800000000040dd5e;
  0x400000000040dd62000000000040dd61c00000000040dd61800000000040dd61400000000040dd61000000000040dd60c00000000040dd60800000000040dd60;
  0x400000000040dd64000000000040dd63c00000000040dd63800000000040dd63400000000040dd63000000000040dd62c00000000040dd62800000000040dd62;
  0x400000000040dd66000000000040dd65c00000000040dd65800000000040dd65400000000040dd65000000000040dd64c00000000040dd64800000000040dd64;
  0x400000000040dd68000000000040dd67c00000000040dd67800000000040dd67400000000040dd67000000000040dd66c00000000040dd66800000000040dd66;
  0x400000000040dd6a000000000040dd69c00000000040dd69800000000040dd69400000000040dd69000000000040dd68c00000000040dd68800000000040dd68;
  0x400000000040dd6c000000000040dd6bc00000000040dd6b800000000040dd6b400000000040dd6b000000000040dd6ac00000000040dd6a800000000040dd6a;
  0x400000000040dd6e000000000040dd6dc00000000040dd6d800000000040dd6d400000000040dd6d000000000040dd6cc00000000040dd6c800000000040dd6c;
  0x400000000040dd70000000000040dd6fc00000000040dd6f800000000040dd6f400000000040dd6f000000000040dd6ec00000000040dd6e800000000040dd6e;
  0x400000000040dd72000000000040dd71c00000000040dd71800000000040dd71400000000040dd71000000000040dd70c00000000040dd70800000000040dd70;
  0x400000000040dd74000000000040dd73c00000000040dd73800000000040dd73400000000040dd73000000000040dd72c00000000040dd72800000000040dd72;
  0x400000000040dd76000000000040dd75c00000000040dd75800000000040dd75400000000040dd75000000000040dd74c00000000040dd74800000000040dd74;
  0x400000000040dd78000000000040dd77c00000000040dd77800000000040dd77400000000040dd77000000000040dd76c00000000040dd76800000000040dd76;
  0x400000000040dd7a000000000040dd79c00000000040dd79800000000040dd79400000000040dd79000000000040dd78c00000000040dd78800000000040dd78;
  0x400000000040dd7c000000000040dd7bc00000000040dd7b800000000040dd7b400000000040dd7b000000000040dd7ac00000000040dd7a800000000040dd7a;
  0x400000000040dd7e000000000040dd7dc00000000040dd7d800000000040dd7d400000000040dd7d000000000040dd7cc00000000040dd7c800000000040dd7c;
  0x400000000040dd80000000000040dd7fc00000000040dd7f800000000040dd7f400000000040dd7f000000000040dd7ec00000000040dd7e800000000040dd7e;
  0x400000000040dd82000000000040dd81c00000000040dd81800000000040dd81400000000040dd81000000000040dd80c00000000040dd80800000000040dd80;
  0x400000000040dd84000000000040dd83c00000000040dd83800000000040dd83400000000040dd83000000000040dd82c00000000040dd82800000000040dd82;
  0x400000000040dd86000000000040dd85c00000000040dd85800000000040dd85400000000040dd85000000000040dd84c00000000040dd84800000000040dd84;
  0x400000000040dd88000000000040dd87c00000000040dd87800000000040dd87400000000040dd87000000000040dd86c00000000040dd86800000000040dd86;
  0x400000000040dd8a000000000040dd89c00000000040dd89800000000040dd89400000000040dd89000000000040dd88c00000000040dd88800000000040dd88;
  0x400000000040dd8c000000000040dd8bc00000000040dd8b800000000040dd8b400000000040dd8b000000000040dd8ac00000000040dd8a800000000040dd8a;
  0x400000000040dd8e000000000040dd8dc00000000040dd8d800000000040dd8d400000000040dd8d000000000040dd8cc00000000040dd8c800000000040dd8c;
  0x400000000040dd90000000000040dd8fc00000000040dd8f800000000040dd8f400000000040dd8f000000000040dd8ec00000000040dd8e800000000040dd8e;
  0x400000000040dd92000000000040dd91c00000000040dd91800000000040dd91400000000040dd91000000000040dd90c00000000040dd90800000000040dd90;
  0x400000000040dd94000000000040dd93c00000000040dd93800000000040dd93400000000040dd93000000000040dd92c00000000040dd92800000000040dd92;
  0x400000000040dd96000000000040dd95c00000000040dd95800000000040dd95400000000040dd95000000000040dd94c00000000040dd94800000000040dd94;
  0x400000000040dd98000000000040dd97c00000000040dd97800000000040dd97400000000040dd97000000000040dd96c00000000040dd96800000000040dd96;
  0x400000000040dd9a000000000040dd99c00000000040dd99800000000040dd99400000000040dd99000000000040dd98c00000000040dd98800000000040dd98;
  0x400000000040dd9c000000000040dd9bc00000000040dd9b800000000040dd9b400000000040dd9b000000000040dd9ac00000000040dd9a800000000040dd9a;
  0x400000000040dd9e000000000040dd9dc00000000040dd9d800000000040dd9d400000000040dd9d000000000040dd9cc00000000040dd9c800000000040dd9c;
  0x400000000040dda0000000000040dd9fc00000000040dd9f800000000040dd9f400000000040dd9f000000000040dd9ec00000000040dd9e800000000040dd9e;
  0x400000000040dda2000000000040dda1c00000000040dda1800000000040dda1400000000040dda1000000000040dda0c00000000040dda0800000000040dda0;
  0x400000000040dda4000000000040dda3c00000000040dda3800000000040dda3400000000040dda3000000000040dda2c00000000040dda2800000000040dda2;
  0x400000000040dda6000000000040dda5c00000000040dda5800000000040dda5400000000040dda5000000000040dda4c00000000040dda4800000000040dda4;
  0x400000000040dda8000000000040dda7c00000000040dda7800000000040dda7400000000040dda7000000000040dda6c00000000040dda6800000000040dda6;
  0x400000000040ddaa000000000040dda9c00000000040dda9800000000040dda9400000000040dda9000000000040dda8c00000000040dda8800000000040dda8;
  0x400000000040ddac000000000040ddabc00000000040ddab800000000040ddab400000000040ddab000000000040ddaac00000000040ddaa800000000040ddaa;
  0x400000000040ddae000000000040ddadc00000000040ddad800000000040ddad400000000040ddad000000000040ddacc00000000040ddac800000000040ddac;
  0x400000000040ddb0000000000040ddafc00000000040ddaf800000000040ddaf400000000040ddaf000000000040ddaec00000000040ddae800000000040ddae;
  0x400000000040ddb2000000000040ddb1c00000000040ddb1800000000040ddb1400000000040ddb1000000000040ddb0c00000000040ddb0800000000040ddb0;
  0x400000000040ddb4000000000040ddb3c00000000040ddb3800000000040ddb3400000000040ddb3000000000040ddb2c00000000040ddb2800000000040ddb2;
  0x400000000040ddb6000000000040ddb5c00000000040ddb5800000000040ddb5400000000040ddb5000000000040ddb4c00000000040ddb4800000000040ddb4;
  0x400000000040ddb8000000000040ddb7c00000000040ddb7800000000040ddb7400000000040ddb7000000000040ddb6c00000000040ddb6800000000040ddb6;
  0x400000000040ddba000000000040ddb9c00000000040ddb9800000000040ddb9400000000040ddb9000000000040ddb8c00000000040ddb8800000000040ddb8;
  0x400000000040ddbc000000000040ddbbc00000000040ddbb800000000040ddbb400000000040ddbb000000000040ddbac00000000040ddba800000000040ddba;
  0x400000000040ddbe000000000040ddbdc00000000040ddbd800000000040ddbd400000000040ddbd000000000040ddbcc00000000040ddbc800000000040ddbc;
  0x400000000040ddc0000000000040ddbfc00000000040ddbf800000000040ddbf400000000040ddbf000000000040ddbec00000000040ddbe800000000040ddbe;
  0x400000000040ddc2000000000040ddc1c00000000040ddc1800000000040ddc1400000000040ddc1000000000040ddc0c00000000040ddc0800000000040ddc0;
  0x400000000040ddc4000000000040ddc3c00000000040ddc3800000000040ddc3400000000040ddc3000000000040ddc2c00000000040ddc2800000000040ddc2;
  0x400000000040ddc6000000000040ddc5c00000000040ddc5800000000040ddc5400000000040ddc5000000000040ddc4c00000000040ddc4800000000040ddc4;
  0x400000000040ddc8000000000040ddc7c00000000040ddc7800000000040ddc7400000000040ddc7000000000040ddc6c00000000040ddc6800000000040ddc6;
  0xa00000000040e388800000000040e388600000000040e388400000000040e388200000000040e388000000000040ddc8c00000000040ddc8800000000040ddc8;
  0xa00000000040e389800000000040e389600000000040e389400000000040e389200000000040e389000000000040e388e00000000040e388c00000000040e388;
  0xa00000000040e38a800000000040e38a600000000040e38a400000000040e38a200000000040e38a000000000040e389e00000000040e389c00000000040e389;
  0xa00000000040e38b800000000040e38b600000000040e38b400000000040e38b200000000040e38b000000000040e38ae00000000040e38ac00000000040e38a;
  0xa00000000040e38c800000000040e38c600000000040e38c400000000040e38c200000000040e38c000000000040e38be00000000040e38bc00000000040e38b;
  0xa00000000040e38d800000000040e38d600000000040e38d400000000040e38d200000000040e38d000000000040e38ce00000000040e38cc00000000040e38c;
  0xa00000000040e38e800000000040e38e600000000040e38e400000000040e38e200000000040e38e000000000040e38de00000000040e38dc00000000040e38d;
  0xa00000000040e38f800000000040e38f600000000040e38f400000000040e38f200000000040e38f000000000040e38ee00000000040e38ec00000000040e38e;
  0xa00000000040e390800000000040e390600000000040e390400000000040e390200000000040e390000000000040e38fe00000000040e38fc00000000040e38f;
  0xa00000000040e391800000000040e391600000000040e391400000000040e391200000000040e391000000000040e390e00000000040e390c00000000040e390;
  0xa00000000040e392800000000040e392600000000040e392400000000040e392200000000040e392000000000040e391e00000000040e391c00000000040e391;
  0xa00000000040e393800000000040e393600000000040e393400000000040e393200000000040e393000000000040e392e00000000040e392c00000000040e392;
  0xa00000000040e394800000000040e394600000000040e394400000000040e394200000000040e394000000000040e393e00000000040e393c00000000040e393;
  0xa00000000040e395800000000040e395600000000040e395400000000040e395200000000040e395000000000040e394e00000000040e394c00000000040e394;
  0xa00000000040e396800000000040e396600000000040e396400000000040e396200000000040e396000000000040e395e00000000040e395c00000000040e395;
  0xa00000000040e397800000000040e397600000000040e397400000000040e397200000000040e397000000000040e396e00000000040e396c00000000040e396;
  0xa00000000040e398800000000040e398600000000040e398400000000040e398200000000040e398000000000040e397e00000000040e397c00000000040e397;
  0xa00000000040e399800000000040e399600000000040e399400000000040e399200000000040e399000000000040e398e00000000040e398c00000000040e398;
  0xa00000000040e39a800000000040e39a600000000040e39a400000000040e39a200000000040e39a000000000040e399e00000000040e399c00000000040e399;
  0xa00000000040e39b800000000040e39b600000000040e39b400000000040e39b200000000040e39b000000000040e39ae00000000040e39ac00000000040e39a;
  0xa00000000040e39c800000000040e39c600000000040e39c400000000040e39c200000000040e39c000000000040e39be00000000040e39bc00000000040e39b;
  0xa00000000040e39d800000000040e39d600000000040e39d400000000040e39d200000000040e39d000000000040e39ce00000000040e39cc00000000040e39c;
  0xa00000000040e39e800000000040e39e600000000040e39e400000000040e39e200000000040e39e000000000040e39de00000000040e39dc00000000040e39d;
  0xa00000000040e39f800000000040e39f600000000040e39f400000000040e39f200000000040e39f000000000040e39ee00000000040e39ec00000000040e39e;
  0xa00000000040e3a0800000000040e3a0600000000040e3a0400000000040e3a0200000000040e3a0000000000040e39fe00000000040e39fc00000000040e39f;
  0xa00000000040e3a1800000000040e3a1600000000040e3a1400000000040e3a1200000000040e3a1000000000040e3a0e00000000040e3a0c00000000040e3a0;
  0xa00000000040e3a2800000000040e3a2600000000040e3a2400000000040e3a2200000000040e3a2000000000040e3a1e00000000040e3a1c00000000040e3a1;
  0xa00000000040e3a3800000000040e3a3600000000040e3a3400000000040e3a3200000000040e3a3000000000040e3a2e00000000040e3a2c00000000040e3a2;
  0xa00000000040e3a4800000000040e3a4600000000040e3a4400000000040e3a4200000000040e3a4000000000040e3a3e00000000040e3a3c00000000040e3a3;
  0xa00000000040e3a5800000000040e3a5600000000040e3a5400000000040e3a5200000000040e3a5000000000040e3a4e00000000040e3a4c00000000040e3a4;
  0xa00000000040e3a6800000000040e3a6600000000040e3a6400000000040e3a6200000000040e3a6000000000040e3a5e00000000040e3a5c00000000040e3a5;
  0xa00000000040e3a7800000000040e3a7600000000040e3a7400000000040e3a7200000000040e3a7000000000040e3a6e00000000040e3a6c00000000040e3a6;
  0xa00000000040e3a8800000000040e3a8600000000040e3a8400000000040e3a8200000000040e3a8000000000040e3a7e00000000040e3a7c00000000040e3a7;
  0xa00000000040e3a9800000000040e3a9600000000040e3a9400000000040e3a9200000000040e3a9000000000040e3a8e00000000040e3a8c00000000040e3a8;
  0xa00000000040e3aa800000000040e3aa600000000040e3aa400000000040e3aa200000000040e3aa000000000040e3a9e00000000040e3a9c00000000040e3a9;
  0xa00000000040e3ab800000000040e3ab600000000040e3ab400000000040e3ab200000000040e3ab000000000040e3aae00000000040e3aac00000000040e3aa;
  0xa00000000040e3ac800000000040e3ac600000000040e3ac400000000040e3ac200000000040e3ac000000000040e3abe00000000040e3abc00000000040e3ab;
  0xa00000000040e3ad800000000040e3ad600000000040e3ad400000000040e3ad200000000040e3ad000000000040e3ace00000000040e3acc00000000040e3ac;
  0xa00000000040e3ae800000000040e3ae600000000040e3ae400000000040e3ae200000000040e3ae000000000040e3ade00000000040e3adc00000000040e3ad;
  0xa00000000040e3af800000000040e3af600000000040e3af400000000040e3af200000000040e3af000000000040e3aee00000000040e3aec00000000040e3ae;
  0xa00000000040e3b0800000000040e3b0600000000040e3b0400000000040e3b0200000000040e3b0000000000040e3afe00000000040e3afc00000000040e3af;
  0xa00000000040e3b1800000000040e3b1600000000040e3b1400000000040e3b1200000000040e3b1000000000040e3b0e00000000040e3b0c00000000040e3b0;
  0xa00000000040e3b2800000000040e3b2600000000040e3b2400000000040e3b2200000000040e3b2000000000040e3b1e00000000040e3b1c00000000040e3b1;
  0xa00000000040e3b3800000000040e3b3600000000040e3b3400000000040e3b3200000000040e3b3000000000040e3b2e00000000040e3b2c00000000040e3b2;
  0xa00000000040e3b4800000000040e3b4600000000040e3b4400000000040e3b4200000000040e3b4000000000040e3b3e00000000040e3b3c00000000040e3b3;
  0xa00000000040e3b5800000000040e3b5600000000040e3b5400000000040e3b5200000000040e3b5000000000040e3b4e00000000040e3b4c00000000040e3b4;
  0xa00000000040e3b6800000000040e3b6600000000040e3b6400000000040e3b6200000000040e3b6000000000040e3b5e00000000040e3b5c00000000040e3b5;
  0xa00000000040e3b7800000000040e3b7600000000040e3b7400000000040e3b7200000000040e3b7000000000040e3b6e00000000040e3b6c00000000040e3b6;
  0xa00000000040e3b8800000000040e3b8600000000040e3b8400000000040e3b8200000000040e3b8000000000040e3b7e00000000040e3b7c00000000040e3b7;
  0xa00000000040e3b9800000000040e3b9600000000040e3b9400000000040e3b9200000000040e3b9000000000040e3b8e00000000040e3b8c00000000040e3b8;
  0xa00000000040e3ba800000000040e3ba600000000040e3ba400000000040e3ba200000000040e3ba000000000040e3b9e00000000040e3b9c00000000040e3b9;
  0xa00000000040e3bb800000000040e3bb600000000040e3bb400000000040e3bb200000000040e3bb000000000040e3bae00000000040e3bac00000000040e3ba;
  0xa00000000040e3bc800000000040e3bc600000000040e3bc400000000040e3bc200000000040e3bc000000000040e3bbe00000000040e3bbc00000000040e3bb;
  0xa00000000040e3bd800000000040e3bd600000000040e3bd400000000040e3bd200000000040e3bd000000000040e3bce00000000040e3bcc00000000040e3bc;
  0xa00000000040e3be800000000040e3be600000000040e3be400000000040e3be200000000040e3be000000000040e3bde00000000040e3bdc00000000040e3bd;
  0xa00000000040e3bf800000000040e3bf600000000040e3bf400000000040e3bf200000000040e3bf000000000040e3bee00000000040e3bec00000000040e3be;
  0xa00000000040e3c0800000000040e3c0600000000040e3c0400000000040e3c0200000000040e3c0000000000040e3bfe00000000040e3bfc00000000040e3bf;
  0xa00000000040e3c1800000000040e3c1600000000040e3c1400000000040e3c1200000000040e3c1000000000040e3c0e00000000040e3c0c00000000040e3c0;
  0xa00000000040e3c2800000000040e3c2600000000040e3c2400000000040e3c2200000000040e3c2000000000040e3c1e00000000040e3c1c00000000040e3c1;
  0xa00000000040e3c3800000000040e3c3600000000040e3c3400000000040e3c3200000000040e3c3000000000040e3c2e00000000040e3c2c00000000040e3c2;
  0xa00000000040e3c4800000000040e3c4600000000040e3c4400000000040e3c4200000000040e3c4000000000040e3c3e00000000040e3c3c00000000040e3c3;
  0xa00000000040e3c5800000000040e3c5600000000040e3c5400000000040e3c5200000000040e3c5000000000040e3c4e00000000040e3c4c00000000040e3c4;
  0x200000000040e86a000000000040e3c6600000000040e3c6400000000040e3c6200000000040e3c6000000000040e3c5e00000000040e3c5c00000000040e3c5;
  0x200000000040e86b000000000040e86ae00000000040e86ac00000000040e86aa00000000040e86a800000000040e86a600000000040e86a400000000040e86a;
  0x200000000040e86c000000000040e86be00000000040e86bc00000000040e86ba00000000040e86b800000000040e86b600000000040e86b400000000040e86b;
  0x200000000040e86d000000000040e86ce00000000040e86cc00000000040e86ca00000000040e86c800000000040e86c600000000040e86c400000000040e86c;
  0x200000000040e86e000000000040e86de00000000040e86dc00000000040e86da00000000040e86d800000000040e86d600000000040e86d400000000040e86d;
  0x200000000040e86f000000000040e86ee00000000040e86ec00000000040e86ea00000000040e86e800000000040e86e600000000040e86e400000000040e86e;
  0x200000000040e870000000000040e86fe00000000040e86fc00000000040e86fa00000000040e86f800000000040e86f600000000040e86f400000000040e86f;
  0x200000000040e871000000000040e870e00000000040e870c00000000040e870a00000000040e870800000000040e870600000000040e870400000000040e870;
  0x200000000040e872000000000040e871e00000000040e871c00000000040e871a00000000040e871800000000040e871600000000040e871400000000040e871;
  0x200000000040e873000000000040e872e00000000040e872c00000000040e872a00000000040e872800000000040e872600000000040e872400000000040e872;
  0x200000000040e874000000000040e873e00000000040e873c00000000040e873a00000000040e873800000000040e873600000000040e873400000000040e873;
  0x200000000040e875000000000040e874e00000000040e874c00000000040e874a00000000040e874800000000040e874600000000040e874400000000040e874;
  0x200000000040e876000000000040e875e00000000040e875c00000000040e875a00000000040e875800000000040e875600000000040e875400000000040e875;
  0x200000000040e877000000000040e876e00000000040e876c00000000040e876a00000000040e876800000000040e876600000000040e876400000000040e876;
  0x200000000040e878000000000040e877e00000000040e877c00000000040e877a00000000040e877800000000040e877600000000040e877400000000040e877;
  0x200000000040e879000000000040e878e00000000040e878c00000000040e878a00000000040e878800000000040e878600000000040e878400000000040e878;
  0x200000000040e87a000000000040e879e00000000040e879c00000000040e879a00000000040e879800000000040e879600000000040e879400000000040e879;
  0x200000000040e87b000000000040e87ae00000000040e87ac00000000040e87aa00000000040e87a800000000040e87a600000000040e87a400000000040e87a;
  0x200000000040e87c000000000040e87be00000000040e87bc00000000040e87ba00000000040e87b800000000040e87b600000000040e87b400000000040e87b;
  0x200000000040e87d000000000040e87ce00000000040e87cc00000000040e87ca00000000040e87c800000000040e87c600000000040e87c400000000040e87c;
  0x200000000040e87e000000000040e87de00000000040e87dc00000000040e87da00000000040e87d800000000040e87d600000000040e87d400000000040e87d;
  0x200000000040e87f000000000040e87ee00000000040e87ec00000000040e87ea00000000040e87e800000000040e87e600000000040e87e400000000040e87e;
  0x200000000040e880000000000040e87fe00000000040e87fc00000000040e87fa00000000040e87f800000000040e87f600000000040e87f400000000040e87f;
  0x200000000040e881000000000040e880e00000000040e880c00000000040e880a00000000040e880800000000040e880600000000040e880400000000040e880;
  0x200000000040e882000000000040e881e00000000040e881c00000000040e881a00000000040e881800000000040e881600000000040e881400000000040e881;
  0x200000000040e883000000000040e882e00000000040e882c00000000040e882a00000000040e882800000000040e882600000000040e882400000000040e882;
  0x200000000040e884000000000040e883e00000000040e883c00000000040e883a00000000040e883800000000040e883600000000040e883400000000040e883;
  0x200000000040e885000000000040e884e00000000040e884c00000000040e884a00000000040e884800000000040e884600000000040e884400000000040e884;
  0x200000000040e886000000000040e885e00000000040e885c00000000040e885a00000000040e885800000000040e885600000000040e885400000000040e885;
  0x200000000040e887000000000040e886e00000000040e886c00000000040e886a00000000040e886800000000040e886600000000040e886400000000040e886;
  0x200000000040e888000000000040e887e00000000040e887c00000000040e887a00000000040e887800000000040e887600000000040e887400000000040e887;
  0x200000000040e889000000000040e888e00000000040e888c00000000040e888a00000000040e888800000000040e888600000000040e888400000000040e888;
  0x200000000040e88a000000000040e889e00000000040e889c00000000040e889a00000000040e889800000000040e889600000000040e889400000000040e889;
  0x200000000040e88b000000000040e88ae00000000040e88ac00000000040e88aa00000000040e88a800000000040e88a600000000040e88a400000000040e88a;
  0x200000000040e88c000000000040e88be00000000040e88bc00000000040e88ba00000000040e88b800000000040e88b600000000040e88b400000000040e88b;
  0x200000000040e88d000000000040e88ce00000000040e88cc00000000040e88ca00000000040e88c800000000040e88c600000000040e88c400000000040e88c;
  0x200000000040e88e000000000040e88de00000000040e88dc00000000040e88da00000000040e88d800000000040e88d600000000040e88d400000000040e88d;
  0x200000000040e88f000000000040e88ee00000000040e88ec00000000040e88ea00000000040e88e800000000040e88e600000000040e88e400000000040e88e;
  0x200000000040e890000000000040e88fe00000000040e88fc00000000040e88fa00000000040e88f800000000040e88f600000000040e88f400000000040e88f;
  0x200000000040e891000000000040e890e00000000040e890c00000000040e890a00000000040e890800000000040e890600000000040e890400000000040e890;
  0x200000000040e892000000000040e891e00000000040e891c00000000040e891a00000000040e891800000000040e891600000000040e891400000000040e891;
  0x200000000040e893000000000040e892e00000000040e892c00000000040e892a00000000040e892800000000040e892600000000040e892400000000040e892;
  0x200000000040e894000000000040e893e00000000040e893c00000000040e893a00000000040e893800000000040e893600000000040e893400000000040e893;
  0x200000000040e895000000000040e894e00000000040e894c00000000040e894a00000000040e894800000000040e894600000000040e894400000000040e894;
  0x200000000040e896000000000040e895e00000000040e895c00000000040e895a00000000040e895800000000040e895600000000040e895400000000040e895;
  0x200000000040e897000000000040e896e00000000040e896c00000000040e896a00000000040e896800000000040e896600000000040e896400000000040e896;
  0x200000000040e898000000000040e897e00000000040e897c00000000040e897a00000000040e897800000000040e897600000000040e897400000000040e897;
  0x200000000040e899000000000040e898e00000000040e898c00000000040e898a00000000040e898800000000040e898600000000040e898400000000040e898;
  0x200000000040e89a000000000040e899e00000000040e899c00000000040e899a00000000040e899800000000040e899600000000040e899400000000040e899;
  0x200000000040e89b000000000040e89ae00000000040e89ac00000000040e89aa00000000040e89a800000000040e89a600000000040e89a400000000040e89a;
  0x200000000040e89c000000000040e89be00000000040e89bc00000000040e89ba00000000040e89b800000000040e89b600000000040e89b400000000040e89b;
  0x200000000040e89d000000000040e89ce00000000040e89cc00000000040e89ca00000000040e89c800000000040e89c600000000040e89c400000000040e89c;
  0x200000000040e89e000000000040e89de00000000040e89dc00000000040e89da00000000040e89d800000000040e89d600000000040e89d400000000040e89d;
  0x200000000040e89f000000000040e89ee00000000040e89ec00000000040e89ea00000000040e89e800000000040e89e600000000040e89e400000000040e89e;
  0x200000000040e8a0000000000040e89fe00000000040e89fc00000000040e89fa00000000040e89f800000000040e89f600000000040e89f400000000040e89f;
  0x200000000040e8a1000000000040e8a0e00000000040e8a0c00000000040e8a0a00000000040e8a0800000000040e8a0600000000040e8a0400000000040e8a0;
  0x200000000040e8a2000000000040e8a1e00000000040e8a1c00000000040e8a1a00000000040e8a1800000000040e8a1600000000040e8a1400000000040e8a1;
  0x200000000040e8a3000000000040e8a2e00000000040e8a2c00000000040e8a2a00000000040e8a2800000000040e8a2600000000040e8a2400000000040e8a2;
  0x200000000040e8a4000000000040e8a3e00000000040e8a3c00000000040e8a3a00000000040e8a3800000000040e8a3600000000040e8a3400000000040e8a3;
  0x200000000040e8a5000000000040e8a4e00000000040e8a4c00000000040e8a4a00000000040e8a4800000000040e8a4600000000040e8a4400000000040e8a4;
  0x200000000040e8a6000000000040e8a5e00000000040e8a5c00000000040e8a5a00000000040e8a5800000000040e8a5600000000040e8a5400000000040e8a5;
  0x200000000040e8a7000000000040e8a6e00000000040e8a6c00000000040e8a6a00000000040e8a6800000000040e8a6600000000040e8a6400000000040e8a6;
  0x200000000040e8a8000000000040e8a7e00000000040e8a7c00000000040e8a7a00000000040e8a7800000000040e8a7600000000040e8a7400000000040e8a7;
  0x75746375727473272f0000001200000003000000000000008e0000000000005e4e000012690000002e6d53445440e8a8600000000040e8a8400000000040e8a8;
  0x010000000a0000001427326863272f27657275746375727473272f000000120000000000000000000003e8000000010000000a0000001427316863272f276572;
  0x0000000000000000000000000003e8000000010000000a0000001427336863272f27657275746375727473272f000000120000000000000000000003e8000000;
  0x00000040c57d0000000000408f50000000000040d482400000000040c57c8000000000408f48000000000040d482000000000040c57c0000000000408f400000;
  0x000000408f68000000000040d483000000000040c57e0000000000408f60000000000040d482c00000000040c57d8000000000408f58000000000040d4828000;
  0x00000040d483c00000000040c57f8000000000408f78000000000040d483800000000040c57f0000000000408f70000000000040d483400000000040c57e8000;
  0x00000040c5810000000000408f90000000000040d484400000000040c5808000000000408f88000000000040d484000000000040c5800000000000408f800000;
  0x000000408fa8000000000040d485000000000040c5820000000000408fa0000000000040d484c00000000040c5818000000000408f98000000000040d4848000;
  0x00000040d485c00000000040c5838000000000408fb8000000000040d485800000000040c5830000000000408fb0000000000040d485400000000040c5828000;
  0x00000040c5850000000000408fd0000000000040d486400000000040c5848000000000408fc8000000000040d486000000000040c5840000000000408fc00000;
  0x000000408fe8000000000040d487000000000040c5860000000000408fe0000000000040d486c00000000040c5858000000000408fd8000000000040d4868000;
  0x00000040d487c00000000040c5878000000000408ff8000000000040d487800000000040c5870000000000408ff0000000000040d487400000000040c5868000;
  0x00000040c5890000000000409008000000000040d488400000000040c5888000000000409004000000000040d488000000000040c58800000000004090000000;
  0x000000409014000000000040d489000000000040c58a0000000000409010000000000040d488c00000000040c589800000000040900c000000000040d4888000;
  0x00000040d489c00000000040c58b800000000040901c000000000040d489800000000040c58b0000000000409018000000000040d489400000000040c58a8000;
  0x00000040c58d0000000000409028000000000040d48a400000000040c58c8000000000409024000000000040d48a000000000040c58c00000000004090200000;
  0x000000409034000000000040d48b000000000040c58e0000000000409030000000000040d48ac00000000040c58d800000000040902c000000000040d48a8000;
  0x00000040d48bc00000000040c58f800000000040903c000000000040d48b800000000040c58f0000000000409038000000000040d48b400000000040c58e8000;
  0x00000040c5910000000000409048000000000040d48c400000000040c5908000000000409044000000000040d48c000000000040c59000000000004090400000;
  0x000000409054000000000040d48d000000000040c5920000000000409050000000000040d48cc00000000040c591800000000040904c000000000040d48c8000;
  0x00000040d48dc00000000040c593800000000040905c000000000040d48d800000000040c5930000000000409058000000000040d48d400000000040c5928000;
  0x00000040c5950000000000409068000000000040d48e400000000040c5948000000000409064000000000040d48e000000000040c59400000000004090600000;
  0x000000409074000000000040d48f000000000040c5960000000000409070000000000040d48ec00000000040c595800000000040906c000000000040d48e8000;
  0x00000040d48fc00000000040c597800000000040907c000000000040d48f800000000040c5970000000000409078000000000040d48f400000000040c5968000;
  0x00000040c5990000000000409088000000000040d490400000000040c5988000000000409084000000000040d490000000000040c59800000000004090800000;
  0x000000409094000000000040d491000000000040c59a0000000000409090000000000040d490c00000000040c599800000000040908c000000000040d4908000;
  0x00000040d491c00000000040c59b800000000040909c000000000040d491800000000040c59b0000000000409098000000000040d491400000000040c59a8000;
  0x00000040c59d00000000004090a8000000000040d492400000000040c59c80000000004090a4000000000040d492000000000040c59c00000000004090a00000;
  0x0000004090b4000000000040d493000000000040c59e00000000004090b0000000000040d492c00000000040c59d80000000004090ac000000000040d4928000;
  0x00000040d493c00000000040c59f80000000004090bc000000000040d493800000000040c59f00000000004090b8000000000040d493400000000040c59e8000;
  0x00000040c5a100000000004090c8000000000040d494400000000040c5a080000000004090c4000000000040d494000000000040c5a000000000004090c00000;
  0x0000004090d4000000000040d495000000000040c5a200000000004090d0000000000040d494c00000000040c5a180000000004090cc000000000040d4948000;
  0x00000040d495c00000000040c5a380000000004090dc000000000040d495800000000040c5a300000000004090d8000000000040d495400000000040c5a28000;
  0x00000040c5a500000000004090e8000000000040d496400000000040c5a480000000004090e4000000000040d496000000000040c5a400000000004090e00000;
  0x0000004090f4000000000040d497000000000040c5a600000000004090f0000000000040d496c00000000040c5a580000000004090ec000000000040d4968000;
  0x00000040d497c00000000040c5a780000000004090fc000000000040d497800000000040c5a700000000004090f8000000000040d497400000000040c5a68000;
  0x00000040c5a90000000000409108000000000040d498400000000040c5a88000000000409104000000000040d498000000000040c5a800000000004091000000;
  0x000000409114000000000040d499000000000040c5aa0000000000409110000000000040d498c00000000040c5a9800000000040910c000000000040d4988000;
  0x00000040d499c00000000040c5ab800000000040911c000000000040d499800000000040c5ab0000000000409118000000000040d499400000000040c5aa8000;
  0x00000040c5ad0000000000409128000000000040d49a400000000040c5ac8000000000409124000000000040d49a000000000040c5ac00000000004091200000;
  0x000000409134000000000040d49b000000000040c5ae0000000000409130000000000040d49ac00000000040c5ad800000000040912c000000000040d49a8000;
  0x00000040d49bc00000000040c5af800000000040913c000000000040d49b800000000040c5af0000000000409138000000000040d49b400000000040c5ae8000;
  0x00000040c5b10000000000409148000000000040d49c400000000040c5b08000000000409144000000000040d49c000000000040c5b000000000004091400000;
  0x000000409154000000000040d49d000000000040c5b20000000000409150000000000040d49cc00000000040c5b1800000000040914c000000000040d49c8000;
  0x00000040d49dc00000000040c5b3800000000040915c000000000040d49d800000000040c5b30000000000409158000000000040d49d400000000040c5b28000;
  0x00000040c5b50000000000409168000000000040d49e400000000040c5b48000000000409164000000000040d49e000000000040c5b400000000004091600000;
  0x000000409174000000000040d49f000000000040c5b60000000000409170000000000040d49ec00000000040c5b5800000000040916c000000000040d49e8000;
  0x00000040d49fc00000000040c5b7800000000040917c000000000040d49f800000000040c5b70000000000409178000000000040d49f400000000040c5b68000;
  0x00000040c5b90000000000409188000000000040d4a0400000000040c5b88000000000409184000000000040d4a0000000000040c5b800000000004091800000;
  0x000000409194000000000040d4a1000000000040c5ba0000000000409190000000000040d4a0c00000000040c5b9800000000040918c000000000040d4a08000;
  0x00000040d4a1c00000000040c5bb800000000040919c000000000040d4a1800000000040c5bb0000000000409198000000000040d4a1400000000040c5ba8000;
  0x00000040c5bd00000000004091a8000000000040d4a2400000000040c5bc80000000004091a4000000000040d4a2000000000040c5bc00000000004091a00000;
  0x0000004091b4000000000040d4a3000000000040c5be00000000004091b0000000000040d4a2c00000000040c5bd80000000004091ac000000000040d4a28000;
  0x00000040d4a3c00000000040c5bf80000000004091bc000000000040d4a3800000000040c5bf00000000004091b8000000000040d4a3400000000040c5be8000;
  0x00000040c5c100000000004091c8000000000040d4a4400000000040c5c080000000004091c4000000000040d4a4000000000040c5c000000000004091c00000;
  0x0000004091d4000000000040d4a5000000000040c5c200000000004091d0000000000040d4a4c00000000040c5c180000000004091cc000000000040d4a48000;
  0x00000040d4a5c00000000040c5c380000000004091dc000000000040d4a5800000000040c5c300000000004091d8000000000040d4a5400000000040c5c28000;
  0x00000040c5c500000000004091e8000000000040d4a6400000000040c5c480000000004091e4000000000040d4a6000000000040c5c400000000004091e00000;
  0x0000004091f4000000000040d4a7000000000040c5c600000000004091f0000000000040d4a6c00000000040c5c580000000004091ec000000000040d4a68000;
  0x00000040d4a7c00000000040c5c780000000004091fc000000000040d4a7800000000040c5c700000000004091f8000000000040d4a7400000000040c5c68000;
  0x00000040c5c90000000000409208000000000040d4a8400000000040c5c88000000000409204000000000040d4a8000000000040c5c800000000004092000000;
  0x000000409214000000000040d4a9000000000040c5ca0000000000409210000000000040d4a8c00000000040c5c9800000000040920c000000000040d4a88000;
  0x00000040d4a9c00000000040c5cb800000000040921c000000000040d4a9800000000040c5cb0000000000409218000000000040d4a9400000000040c5ca8000;
  0x00000040c5cd0000000000409228000000000040d4aa400000000040c5cc8000000000409224000000000040d4aa000000000040c5cc00000000004092200000;
  0x000000409234000000000040d4ab000000000040c5ce0000000000409230000000000040d4aac00000000040c5cd800000000040922c000000000040d4aa8000;
  0x00000040d4abc00000000040c5cf800000000040923c000000000040d4ab800000000040c5cf0000000000409238000000000040d4ab400000000040c5ce8000;
  0x00000040c5d10000000000409248000000000040d4ac400000000040c5d08000000000409244000000000040d4ac000000000040c5d000000000004092400000;
  0x000000409254000000000040d4ad000000000040c5d20000000000409250000000000040d4acc00000000040c5d1800000000040924c000000000040d4ac8000;
  0x00000040d4adc00000000040c5d3800000000040925c000000000040d4ad800000000040c5d30000000000409258000000000040d4ad400000000040c5d28000;
  0x00000040c5d50000000000409268000000000040d4ae400000000040c5d48000000000409264000000000040d4ae000000000040c5d400000000004092600000;
  0x000000409274000000000040d4af000000000040c5d60000000000409270000000000040d4aec00000000040c5d5800000000040926c000000000040d4ae8000;
  0x00000040d4afc00000000040c5d7800000000040927c000000000040d4af800000000040c5d70000000000409278000000000040d4af400000000040c5d68000;
  0x00000040c5d90000000000409288000000000040d4b0400000000040c5d88000000000409284000000000040d4b0000000000040c5d800000000004092800000;
  0x000000409294000000000040d4b1000000000040c5da0000000000409290000000000040d4b0c00000000040c5d9800000000040928c000000000040d4b08000;
  0x00000040d4b1c00000000040c5db800000000040929c000000000040d4b1800000000040c5db0000000000409298000000000040d4b1400000000040c5da8000;
  0x00000040c5dd00000000004092a8000000000040d4b2400000000040c5dc80000000004092a4000000000040d4b2000000000040c5dc00000000004092a00000;
  0x0000004092b4000000000040d4b3000000000040c5de00000000004092b0000000000040d4b2c00000000040c5dd80000000004092ac000000000040d4b28000;
  0x00000040d4b3c00000000040c5df80000000004092bc000000000040d4b3800000000040c5df00000000004092b8000000000040d4b3400000000040c5de8000;
  0x00000040c5e100000000004092c8000000000040d4b4400000000040c5e080000000004092c4000000000040d4b4000000000040c5e000000000004092c00000;
  0x0000004092d4000000000040d4b5000000000040c5e200000000004092d0000000000040d4b4c00000000040c5e180000000004092cc000000000040d4b48000;
  0x00000040d4b5c00000000040c5e380000000004092dc000000000040d4b5800000000040c5e300000000004092d8000000000040d4b5400000000040c5e28000;
  0x00000040c5e500000000004092e8000000000040d4b6400000000040c5e480000000004092e4000000000040d4b6000000000040c5e400000000004092e00000;
  0x0000004092f4000000000040d4b7000000000040c5e600000000004092f0000000000040d4b6c00000000040c5e580000000004092ec000000000040d4b68000;
  0x00000040d4b7c00000000040c5e780000000004092fc000000000040d4b7800000000040c5e700000000004092f8000000000040d4b7400000000040c5e68000;
  0x00000040c5e90000000000409308000000000040d4b8400000000040c5e88000000000409304000000000040d4b8000000000040c5e800000000004093000000;
  0x000000409314000000000040d4b9000000000040c5ea0000000000409310000000000040d4b8c00000000040c5e9800000000040930c000000000040d4b88000;
  0x00000040d4b9c00000000040c5eb800000000040931c000000000040d4b9800000000040c5eb0000000000409318000000000040d4b9400000000040c5ea8000;
  0x00000040c5ed0000000000409328000000000040d4ba400000000040c5ec8000000000409324000000000040d4ba000000000040c5ec00000000004093200000;
  0x000000409334000000000040d4bb000000000040c5ee0000000000409330000000000040d4bac00000000040c5ed800000000040932c000000000040d4ba8000;
  0x00000040d4bbc00000000040c5ef800000000040933c000000000040d4bb800000000040c5ef0000000000409338000000000040d4bb400000000040c5ee8000;
  0x00000040c5f10000000000409348000000000040d4bc400000000040c5f08000000000409344000000000040d4bc000000000040c5f000000000004093400000;
  0x000000409354000000000040d4bd000000000040c5f20000000000409350000000000040d4bcc00000000040c5f1800000000040934c000000000040d4bc8000;
  0x00000040d4bdc00000000040c5f3800000000040935c000000000040d4bd800000000040c5f30000000000409358000000000040d4bd400000000040c5f28000;
  0x00000040c5f50000000000409368000000000040d4be400000000040c5f48000000000409364000000000040d4be000000000040c5f400000000004093600000;
  0x000000409374000000000040d4bf000000000040c5f60000000000409370000000000040d4bec00000000040c5f5800000000040936c000000000040d4be8000;
  0x00000040d4bfc00000000040c5f7800000000040937c000000000040d4bf800000000040c5f70000000000409378000000000040d4bf400000000040c5f68000;
  0x00000040c5f90000000000409388000000000040d4c0400000000040c5f88000000000409384000000000040d4c0000000000040c5f800000000004093800000;
  0x000000409394000000000040d4c1000000000040c5fa0000000000409390000000000040d4c0c00000000040c5f9800000000040938c000000000040d4c08000;
  0x00000040d4c1c00000000040c5fb800000000040939c000000000040d4c1800000000040c5fb0000000000409398000000000040d4c1400000000040c5fa8000;
  0x00000040c5fd00000000004093a8000000000040d4c2400000000040c5fc80000000004093a4000000000040d4c2000000000040c5fc00000000004093a00000;
  0x0000004093b4000000000040d4c3000000000040c5fe00000000004093b0000000000040d4c2c00000000040c5fd80000000004093ac000000000040d4c28000;
  0x00000040d4c3c00000000040c5ff80000000004093bc000000000040d4c3800000000040c5ff00000000004093b8000000000040d4c3400000000040c5fe8000;
  0x00000040c60100000000004093c8000000000040d4c4400000000040c60080000000004093c4000000000040d4c4000000000040c60000000000004093c00000;
  0x0000004093d4000000000040d4c5000000000040c60200000000004093d0000000000040d4c4c00000000040c60180000000004093cc000000000040d4c48000;
  0x00000040d4c5c00000000040c60380000000004093dc000000000040d4c5800000000040c60300000000004093d8000000000040d4c5400000000040c6028000;
  0x00000040c60500000000004093e8000000000040d4c6400000000040c60480000000004093e4000000000040d4c6000000000040c60400000000004093e00000;
  0x0000004093f4000000000040d4c7000000000040c60600000000004093f0000000000040d4c6c00000000040c60580000000004093ec000000000040d4c68000;
  0x00000040d4c7c00000000040c60780000000004093fc000000000040d4c7800000000040c60700000000004093f8000000000040d4c7400000000040c6068000;
  0x00000040c6090000000000409408000000000040d4c8400000000040c6088000000000409404000000000040d4c8000000000040c60800000000004094000000;
  0x000000409414000000000040d4c9000000000040c60a0000000000409410000000000040d4c8c00000000040c609800000000040940c000000000040d4c88000;
  0x00000040d4c9c00000000040c60b800000000040941c000000000040d4c9800000000040c60b0000000000409418000000000040d4c9400000000040c60a8000;
  0x00000040c60d0000000000409428000000000040d4ca400000000040c60c8000000000409424000000000040d4ca000000000040c60c00000000004094200000;
  0x000000409434000000000040d4cb000000000040c60e0000000000409430000000000040d4cac00000000040c60d800000000040942c000000000040d4ca8000;
  0x00000040d4cbc00000000040c60f800000000040943c000000000040d4cb800000000040c60f0000000000409438000000000040d4cb400000000040c60e8000;
  0x00000040c6110000000000409448000000000040d4cc400000000040c6108000000000409444000000000040d4cc000000000040c61000000000004094400000;
  0x000000409454000000000040d4cd000000000040c6120000000000409450000000000040d4ccc00000000040c611800000000040944c000000000040d4cc8000;
  0x00000040d4cdc00000000040c613800000000040945c000000000040d4cd800000000040c6130000000000409458000000000040d4cd400000000040c6128000;
  0x00000040c6150000000000409468000000000040d4ce400000000040c6148000000000409464000000000040d4ce000000000040c61400000000004094600000;
  0x000000409474000000000040d4cf000000000040c6160000000000409470000000000040d4cec00000000040c615800000000040946c000000000040d4ce8000;
  0x00000040d4cfc00000000040c617800000000040947c000000000040d4cf800000000040c6170000000000409478000000000040d4cf400000000040c6168000;
  0x00000040c6190000000000409488000000000040d4d0400000000040c6188000000000409484000000000040d4d0000000000040c61800000000004094800000;
  0x000000409494000000000040d4d1000000000040c61a0000000000409490000000000040d4d0c00000000040c619800000000040948c000000000040d4d08000;
  0x00000040d4d1c00000000040c61b800000000040949c000000000040d4d1800000000040c61b0000000000409498000000000040d4d1400000000040c61a8000;
  0x00000040c61d00000000004094a8000000000040d4d2400000000040c61c80000000004094a4000000000040d4d2000000000040c61c00000000004094a00000;
  0x0000004094b4000000000040d4d3000000000040c61e00000000004094b0000000000040d4d2c00000000040c61d80000000004094ac000000000040d4d28000;
  0x00000040d4d3c00000000040c61f80000000004094bc000000000040d4d3800000000040c61f00000000004094b8000000000040d4d3400000000040c61e8000;
  0x00000040c62100000000004094c8000000000040d4d4400000000040c62080000000004094c4000000000040d4d4000000000040c62000000000004094c00000;
  0x0000004094d4000000000040d4d5000000000040c62200000000004094d0000000000040d4d4c00000000040c62180000000004094cc000000000040d4d48000;
  0x00000040d4d5c00000000040c62380000000004094dc000000000040d4d5800000000040c62300000000004094d8000000000040d4d5400000000040c6228000;
  0x00000040c62500000000004094e8000000000040d4d6400000000040c62480000000004094e4000000000040d4d6000000000040c62400000000004094e00000;
  0x0000004094f4000000000040d4d7000000000040c62600000000004094f0000000000040d4d6c00000000040c62580000000004094ec000000000040d4d68000;
  0x00000040d4d7c00000000040c62780000000004094fc000000000040d4d7800000000040c62700000000004094f8000000000040d4d7400000000040c6268000;
  0x00000040c6290000000000409508000000000040d4d8400000000040c6288000000000409504000000000040d4d8000000000040c62800000000004095000000;
  0x000000409514000000000040d4d9000000000040c62a0000000000409510000000000040d4d8c00000000040c629800000000040950c000000000040d4d88000;
  0x00000040d4d9c00000000040c62b800000000040951c000000000040d4d9800000000040c62b0000000000409518000000000040d4d9400000000040c62a8000;
  0x00000040c62d0000000000409528000000000040d4da400000000040c62c8000000000409524000000000040d4da000000000040c62c00000000004095200000;
  0x000000409534000000000040d4db000000000040c62e0000000000409530000000000040d4dac00000000040c62d800000000040952c000000000040d4da8000;
  0x00000040d4dbc00000000040c62f800000000040953c000000000040d4db800000000040c62f0000000000409538000000000040d4db400000000040c62e8000;
  0x00000040c6310000000000409548000000000040d4dc400000000040c6308000000000409544000000000040d4dc000000000040c63000000000004095400000;
  0x000000409554000000000040d4dd000000000040c6320000000000409550000000000040d4dcc00000000040c631800000000040954c000000000040d4dc8000;
  0x00000040d4ddc00000000040c633800000000040955c000000000040d4dd800000000040c6330000000000409558000000000040d4dd400000000040c6328000;
  0x00000040c6350000000000409568000000000040d4de400000000040c6348000000000409564000000000040d4de000000000040c63400000000004095600000;
  0x000000409574000000000040d4df000000000040c6360000000000409570000000000040d4dec00000000040c635800000000040956c000000000040d4de8000;
  0x00000040d4dfc00000000040c637800000000040957c000000000040d4df800000000040c6370000000000409578000000000040d4df400000000040c6368000;
  0x00000040c6390000000000409588000000000040d4e0400000000040c6388000000000409584000000000040d4e0000000000040c63800000000004095800000;
  0x000000409594000000000040d4e1000000000040c63a0000000000409590000000000040d4e0c00000000040c639800000000040958c000000000040d4e08000;
  0x00000040d4e1c00000000040c63b800000000040959c000000000040d4e1800000000040c63b0000000000409598000000000040d4e1400000000040c63a8000;
  0x00000040c63d00000000004095a8000000000040d4e2400000000040c63c80000000004095a4000000000040d4e2000000000040c63c00000000004095a00000;
  0x0000004095b4000000000040d4e3000000000040c63e00000000004095b0000000000040d4e2c00000000040c63d80000000004095ac000000000040d4e28000;
  0x00000040d4e3c00000000040c63f80000000004095bc000000000040d4e3800000000040c63f00000000004095b8000000000040d4e3400000000040c63e8000;
  0x00000040c64100000000004095c8000000000040d4e4400000000040c64080000000004095c4000000000040d4e4000000000040c64000000000004095c00000;
  0x0000004095d4000000000040d4e5000000000040c64200000000004095d0000000000040d4e4c00000000040c64180000000004095cc000000000040d4e48000;
  0x00000040d4e5c00000000040c64380000000004095dc000000000040d4e5800000000040c64300000000004095d8000000000040d4e5400000000040c6428000;
  0x00000040c64500000000004095e8000000000040d4e6400000000040c64480000000004095e4000000000040d4e6000000000040c64400000000004095e00000;
  0x0000004095f4000000000040d4e7000000000040c64600000000004095f0000000000040d4e6c00000000040c64580000000004095ec000000000040d4e68000;
  0x00000040d4e7c00000000040c64780000000004095fc000000000040d4e7800000000040c64700000000004095f8000000000040d4e7400000000040c6468000;
  0x00000040c6490000000000409608000000000040d4e8400000000040c6488000000000409604000000000040d4e8000000000040c64800000000004096000000;
  0x000000409614000000000040d4e9000000000040c64a0000000000409610000000000040d4e8c00000000040c649800000000040960c000000000040d4e88000;
  0x00000040d4e9c00000000040c64b800000000040961c000000000040d4e9800000000040c64b0000000000409618000000000040d4e9400000000040c64a8000;
  0x00000040c64d0000000000409628000000000040d4ea400000000040c64c8000000000409624000000000040d4ea000000000040c64c00000000004096200000;
  0x000000409634000000000040d4eb000000000040c64e0000000000409630000000000040d4eac00000000040c64d800000000040962c000000000040d4ea8000;
  0x00000040d4ebc00000000040c64f800000000040963c000000000040d4eb800000000040c64f0000000000409638000000000040d4eb400000000040c64e8000;
  0x00000040c6510000000000409648000000000040d4ec400000000040c6508000000000409644000000000040d4ec000000000040c65000000000004096400000;
  0x000000409654000000000040d4ed000000000040c6520000000000409650000000000040d4ecc00000000040c651800000000040964c000000000040d4ec8000;
  0x00000040d4edc00000000040c653800000000040965c000000000040d4ed800000000040c6530000000000409658000000000040d4ed400000000040c6528000;
  0x00000040c6550000000000409668000000000040d4ee400000000040c6548000000000409664000000000040d4ee000000000040c65400000000004096600000;
  0x000000409674000000000040d4ef000000000040c6560000000000409670000000000040d4eec00000000040c655800000000040966c000000000040d4ee8000;
  0x00000040d4efc00000000040c657800000000040967c000000000040d4ef800000000040c6570000000000409678000000000040d4ef400000000040c6568000;
  0x00000040c6590000000000409688000000000040d4f0400000000040c6588000000000409684000000000040d4f0000000000040c65800000000004096800000;
  0x000000409694000000000040d4f1000000000040c65a0000000000409690000000000040d4f0c00000000040c659800000000040968c000000000040d4f08000;
  0x00000040d4f1c00000000040c65b800000000040969c000000000040d4f1800000000040c65b0000000000409698000000000040d4f1400000000040c65a8000;
  0x00000040c65d00000000004096a8000000000040d4f2400000000040c65c80000000004096a4000000000040d4f2000000000040c65c00000000004096a00000;
  0x0000004096b4000000000040d4f3000000000040c65e00000000004096b0000000000040d4f2c00000000040c65d80000000004096ac000000000040d4f28000;
  0x00000040d4f3c00000000040c65f80000000004096bc000000000040d4f3800000000040c65f00000000004096b8000000000040d4f3400000000040c65e8000;
  0x00000040c66100000000004096c8000000000040d4f4400000000040c66080000000004096c4000000000040d4f4000000000040c66000000000004096c00000;
  0x0000004096d4000000000040d4f5000000000040c66200000000004096d0000000000040d4f4c00000000040c66180000000004096cc000000000040d4f48000;
  0x00000040d4f5c00000000040c66380000000004096dc000000000040d4f5800000000040c66300000000004096d8000000000040d4f5400000000040c6628000;
  0x00000040c66500000000004096e8000000000040d4f6400000000040c66480000000004096e4000000000040d4f6000000000040c66400000000004096e00000;
  0x0000004096f4000000000040d4f7000000000040c66600000000004096f0000000000040d4f6c00000000040c66580000000004096ec000000000040d4f68000;
  0x00000040d4f7c00000000040c66780000000004096fc000000000040d4f7800000000040c66700000000004096f8000000000040d4f7400000000040c6668000;
  0x00000040c6690000000000409708000000000040d4f8400000000040c6688000000000409704000000000040d4f8000000000040c66800000000004097000000;
  0x000000409714000000000040d4f9000000000040c66a0000000000409710000000000040d4f8c00000000040c669800000000040970c000000000040d4f88000;
  0x00000040d4f9c00000000040c66b800000000040971c000000000040d4f9800000000040c66b0000000000409718000000000040d4f9400000000040c66a8000;
  0x00000040c66d0000000000409728000000000040d4fa400000000040c66c8000000000409724000000000040d4fa000000000040c66c00000000004097200000;
  0x000000409734000000000040d4fb000000000040c66e0000000000409730000000000040d4fac00000000040c66d800000000040972c000000000040d4fa8000;
  0x00000040d4fbc00000000040c66f800000000040973c000000000040d4fb800000000040c66f0000000000409738000000000040d4fb400000000040c66e8000;
  0x00000040c6710000000000409748000000000040d4fc400000000040c6708000000000409744000000000040d4fc000000000040c67000000000004097400000;
  0x000000409754000000000040d4fd000000000040c6720000000000409750000000000040d4fcc00000000040c671800000000040974c000000000040d4fc8000;
  0x00000040d4fdc00000000040c673800000000040975c000000000040d4fd800000000040c6730000000000409758000000000040d4fd400000000040c6728000;
  0x00000040c6750000000000409768000000000040d4fe400000000040c6748000000000409764000000000040d4fe000000000040c67400000000004097600000;
  0x000000409774000000000040d4ff000000000040c6760000000000409770000000000040d4fec00000000040c675800000000040976c000000000040d4fe8000;
  0x00000040d4ffc00000000040c677800000000040977c000000000040d4ff800000000040c6770000000000409778000000000040d4ff400000000040c6768000;
  0x00000040c6790000000000409788000000000040d500400000000040c6788000000000409784000000000040d500000000000040c67800000000004097800000;
  0x000000409794000000000040d501000000000040c67a0000000000409790000000000040d500c00000000040c679800000000040978c000000000040d5008000;
  0x00000040d501c00000000040c67b800000000040979c000000000040d501800000000040c67b0000000000409798000000000040d501400000000040c67a8000;
  0x00000040c67d00000000004097a8000000000040d502400000000040c67c80000000004097a4000000000040d502000000000040c67c00000000004097a00000;
  0x0000004097b4000000000040d503000000000040c67e00000000004097b0000000000040d502c00000000040c67d80000000004097ac000000000040d5028000;
  0x00000040d503c00000000040c67f80000000004097bc000000000040d503800000000040c67f00000000004097b8000000000040d503400000000040c67e8000;
  0x00000040c68100000000004097c8000000000040d504400000000040c68080000000004097c4000000000040d504000000000040c68000000000004097c00000;
  0x0000004097d4000000000040d505000000000040c68200000000004097d0000000000040d504c00000000040c68180000000004097cc000000000040d5048000;
  0x00000040d505c00000000040c68380000000004097dc000000000040d505800000000040c68300000000004097d8000000000040d505400000000040c6828000;
  0x00000040c68500000000004097e8000000000040d506400000000040c68480000000004097e4000000000040d506000000000040c68400000000004097e00000;
  0x0000004097f4000000000040d507000000000040c68600000000004097f0000000000040d506c00000000040c68580000000004097ec000000000040d5068000;
  0x00000040d507c00000000040c68780000000004097fc000000000040d507800000000040c68700000000004097f8000000000040d507400000000040c6868000;
  0x00000040c6890000000000409808000000000040d508400000000040c6888000000000409804000000000040d508000000000040c68800000000004098000000;
  0x000000409814000000000040d509000000000040c68a0000000000409810000000000040d508c00000000040c689800000000040980c000000000040d5088000;
  0x00000040d509c00000000040c68b800000000040981c000000000040d509800000000040c68b0000000000409818000000000040d509400000000040c68a8000;
  0x00000040c68d0000000000409828000000000040d50a400000000040c68c8000000000409824000000000040d50a000000000040c68c00000000004098200000;
  0x000000409834000000000040d50b000000000040c68e0000000000409830000000000040d50ac00000000040c68d800000000040982c000000000040d50a8000;
  0x00000040d50bc00000000040c68f800000000040983c000000000040d50b800000000040c68f0000000000409838000000000040d50b400000000040c68e8000;
  0x00000040c6910000000000409848000000000040d50c400000000040c6908000000000409844000000000040d50c000000000040c69000000000004098400000;
  0x000000409854000000000040d50d000000000040c6920000000000409850000000000040d50cc00000000040c691800000000040984c000000000040d50c8000;
  0x00000040d50dc00000000040c693800000000040985c000000000040d50d800000000040c6930000000000409858000000000040d50d400000000040c6928000;
  0x00000040c6950000000000409868000000000040d50e400000000040c6948000000000409864000000000040d50e000000000040c69400000000004098600000;
  0x000000409874000000000040d50f000000000040c6960000000000409870000000000040d50ec00000000040c695800000000040986c000000000040d50e8000;
  0x00000040d50fc00000000040c697800000000040987c000000000040d50f800000000040c6970000000000409878000000000040d50f400000000040c6968000;
  0x00000040c6990000000000409888000000000040d510400000000040c6988000000000409884000000000040d510000000000040c69800000000004098800000;
  0x000000409894000000000040d511000000000040c69a0000000000409890000000000040d510c00000000040c699800000000040988c000000000040d5108000;
  0x00000040d511c00000000040c69b800000000040989c000000000040d511800000000040c69b0000000000409898000000000040d511400000000040c69a8000;
  0x00000040c69d00000000004098a8000000000040d512400000000040c69c80000000004098a4000000000040d512000000000040c69c00000000004098a00000;
  0x0000004098b4000000000040d513000000000040c69e00000000004098b0000000000040d512c00000000040c69d80000000004098ac000000000040d5128000;
  0x00000040d513c00000000040c69f80000000004098bc000000000040d513800000000040c69f00000000004098b8000000000040d513400000000040c69e8000;
  0x00000040c6a100000000004098c8000000000040d514400000000040c6a080000000004098c4000000000040d514000000000040c6a000000000004098c00000;
  0x0000004098d4000000000040d515000000000040c6a200000000004098d0000000000040d514c00000000040c6a180000000004098cc000000000040d5148000;
  0x00000040d515c00000000040c6a380000000004098dc000000000040d515800000000040c6a300000000004098d8000000000040d515400000000040c6a28000;
  0x00000040c6a500000000004098e8000000000040d516400000000040c6a480000000004098e4000000000040d516000000000040c6a400000000004098e00000;
  0x0000004098f4000000000040d517000000000040c6a600000000004098f0000000000040d516c00000000040c6a580000000004098ec000000000040d5168000;
  0x00000040d517c00000000040c6a780000000004098fc000000000040d517800000000040c6a700000000004098f8000000000040d517400000000040c6a68000;
  0x00000040c6a90000000000409908000000000040d518400000000040c6a88000000000409904000000000040d518000000000040c6a800000000004099000000;
  0x000000409914000000000040d519000000000040c6aa0000000000409910000000000040d518c00000000040c6a9800000000040990c000000000040d5188000;
  0x00000040d519c00000000040c6ab800000000040991c000000000040d519800000000040c6ab0000000000409918000000000040d519400000000040c6aa8000;
  0x00000040c6ad0000000000409928000000000040d51a400000000040c6ac8000000000409924000000000040d51a000000000040c6ac00000000004099200000;
  0x000000409934000000000040d51b000000000040c6ae0000000000409930000000000040d51ac00000000040c6ad800000000040992c000000000040d51a8000;
  0x00000040d51bc00000000040c6af800000000040993c000000000040d51b800000000040c6af0000000000409938000000000040d51b400000000040c6ae8000;
  0x00000040c6b10000000000409948000000000040d51c400000000040c6b08000000000409944000000000040d51c000000000040c6b000000000004099400000;
  0x000000409954000000000040d51d000000000040c6b20000000000409950000000000040d51cc00000000040c6b1800000000040994c000000000040d51c8000;
  0x00000040d51dc00000000040c6b3800000000040995c000000000040d51d800000000040c6b30000000000409958000000000040d51d400000000040c6b28000;
  0x00000040c6b50000000000409968000000000040d51e400000000040c6b48000000000409964000000000040d51e000000000040c6b400000000004099600000;
  0x000000409974000000000040d51f000000000040c6b60000000000409970000000000040d51ec00000000040c6b5800000000040996c000000000040d51e8000;
  0x00000040d51fc00000000040c6b7800000000040997c000000000040d51f800000000040c6b70000000000409978000000000040d51f400000000040c6b68000;
  0x00000040c6b90000000000409988000000000040d520400000000040c6b88000000000409984000000000040d520000000000040c6b800000000004099800000;
  0x000000409994000000000040d521000000000040c6ba0000000000409990000000000040d520c00000000040c6b9800000000040998c000000000040d5208000;
  0x00000040d521c00000000040c6bb800000000040999c000000000040d521800000000040c6bb0000000000409998000000000040d521400000000040c6ba8000;
  0x00000040c6bd00000000004099a8000000000040d522400000000040c6bc80000000004099a4000000000040d522000000000040c6bc00000000004099a00000;
  0x0000004099b4000000000040d523000000000040c6be00000000004099b0000000000040d522c00000000040c6bd80000000004099ac000000000040d5228000;
  0x00000040d523c00000000040c6bf80000000004099bc000000000040d523800000000040c6bf00000000004099b8000000000040d523400000000040c6be8000;
  0x00000040c6c100000000004099c8000000000040d524400000000040c6c080000000004099c4000000000040d524000000000040c6c000000000004099c00000;
  0x0000004099d4000000000040d525000000000040c6c200000000004099d0000000000040d524c00000000040c6c180000000004099cc000000000040d5248000;
  0x00000040d525c00000000040c6c380000000004099dc000000000040d525800000000040c6c300000000004099d8000000000040d525400000000040c6c28000;
  0x00000040c6c500000000004099e8000000000040d526400000000040c6c480000000004099e4000000000040d526000000000040c6c400000000004099e00000;
  0x0000004099f4000000000040d527000000000040c6c600000000004099f0000000000040d526c00000000040c6c580000000004099ec000000000040d5268000;
  0x00000040d527c00000000040c6c780000000004099fc000000000040d527800000000040c6c700000000004099f8000000000040d527400000000040c6c68000;
  0x00000040c6c90000000000409a08000000000040d528400000000040c6c88000000000409a04000000000040d528000000000040c6c80000000000409a000000;
  0x000000409a14000000000040d529000000000040c6ca0000000000409a10000000000040d528c00000000040c6c98000000000409a0c000000000040d5288000;
  0x00000040d529c00000000040c6cb8000000000409a1c000000000040d529800000000040c6cb0000000000409a18000000000040d529400000000040c6ca8000;
  0x00000040c6cd0000000000409a28000000000040d52a400000000040c6cc8000000000409a24000000000040d52a000000000040c6cc0000000000409a200000;
  0x000000409a34000000000040d52b000000000040c6ce0000000000409a30000000000040d52ac00000000040c6cd8000000000409a2c000000000040d52a8000;
  0x00000040d52bc00000000040c6cf8000000000409a3c000000000040d52b800000000040c6cf0000000000409a38000000000040d52b400000000040c6ce8000;
  0x00000040c6d10000000000409a48000000000040d52c400000000040c6d08000000000409a44000000000040d52c000000000040c6d00000000000409a400000;
  0x000000409a54000000000040d52d000000000040c6d20000000000409a50000000000040d52cc00000000040c6d18000000000409a4c000000000040d52c8000;
  0x00000040d52dc00000000040c6d38000000000409a5c000000000040d52d800000000040c6d30000000000409a58000000000040d52d400000000040c6d28000;
  0x00000040c6d50000000000409a68000000000040d52e400000000040c6d48000000000409a64000000000040d52e000000000040c6d40000000000409a600000;
  0x000000409a74000000000040d52f000000000040c6d60000000000409a70000000000040d52ec00000000040c6d58000000000409a6c000000000040d52e8000;
  0x00000040d52fc00000000040c6d78000000000409a7c000000000040d52f800000000040c6d70000000000409a78000000000040d52f400000000040c6d68000;
  0x00000040c6d90000000000409a88000000000040d530400000000040c6d88000000000409a84000000000040d530000000000040c6d80000000000409a800000;
  0x000000409a94000000000040d531000000000040c6da0000000000409a90000000000040d530c00000000040c6d98000000000409a8c000000000040d5308000;
  0x00000040d531c00000000040c6db8000000000409a9c000000000040d531800000000040c6db0000000000409a98000000000040d531400000000040c6da8000;
  0x00000040c6dd0000000000409aa8000000000040d532400000000040c6dc8000000000409aa4000000000040d532000000000040c6dc0000000000409aa00000;
  0x000000409ab4000000000040d533000000000040c6de0000000000409ab0000000000040d532c00000000040c6dd8000000000409aac000000000040d5328000;
  0x00000040d533c00000000040c6df8000000000409abc000000000040d533800000000040c6df0000000000409ab8000000000040d533400000000040c6de8000;
  0x00000040c6e10000000000409ac8000000000040d534400000000040c6e08000000000409ac4000000000040d534000000000040c6e00000000000409ac00000;
  0x000000409ad4000000000040d535000000000040c6e20000000000409ad0000000000040d534c00000000040c6e18000000000409acc000000000040d5348000;
  0x00000040d535c00000000040c6e38000000000409adc000000000040d535800000000040c6e30000000000409ad8000000000040d535400000000040c6e28000;
  0x00000040c6e50000000000409ae8000000000040d536400000000040c6e48000000000409ae4000000000040d536000000000040c6e40000000000409ae00000;
  0x000000409af4000000000040d537000000000040c6e60000000000409af0000000000040d536c00000000040c6e58000000000409aec000000000040d5368000;
  0x00000040d537c00000000040c6e78000000000409afc000000000040d537800000000040c6e70000000000409af8000000000040d537400000000040c6e68000;
  0x00000040c6e90000000000409b08000000000040d538400000000040c6e88000000000409b04000000000040d538000000000040c6e80000000000409b000000;
  0x000000409b14000000000040d539000000000040c6ea0000000000409b10000000000040d538c00000000040c6e98000000000409b0c000000000040d5388000;
  0x00000040d539c00000000040c6eb8000000000409b1c000000000040d539800000000040c6eb0000000000409b18000000000040d539400000000040c6ea8000;
  0x00000040c6ed0000000000409b28000000000040d53a400000000040c6ec8000000000409b24000000000040d53a000000000040c6ec0000000000409b200000;
  0x000000409b34000000000040d53b000000000040c6ee0000000000409b30000000000040d53ac00000000040c6ed8000000000409b2c000000000040d53a8000;
  0x00000040d53bc00000000040c6ef8000000000409b3c000000000040d53b800000000040c6ef0000000000409b38000000000040d53b400000000040c6ee8000;
  0x00000040c6f10000000000409b48000000000040d53c400000000040c6f08000000000409b44000000000040d53c000000000040c6f00000000000409b400000;
  0x000000409b54000000000040d53d000000000040c6f20000000000409b50000000000040d53cc00000000040c6f18000000000409b4c000000000040d53c8000;
  0x00000040d53dc00000000040c6f38000000000409b5c000000000040d53d800000000040c6f30000000000409b58000000000040d53d400000000040c6f28000;
  0x00000040c6f50000000000409b68000000000040d53e400000000040c6f48000000000409b64000000000040d53e000000000040c6f40000000000409b600000;
  0x000000409b74000000000040d53f000000000040c6f60000000000409b70000000000040d53ec00000000040c6f58000000000409b6c000000000040d53e8000;
  0x00000040d53fc00000000040c6f78000000000409b7c000000000040d53f800000000040c6f70000000000409b78000000000040d53f400000000040c6f68000;
  0x00000040c6f90000000000409b88000000000040d540400000000040c6f88000000000409b84000000000040d540000000000040c6f80000000000409b800000;
  0x000000409b94000000000040d541000000000040c6fa0000000000409b90000000000040d540c00000000040c6f98000000000409b8c000000000040d5408000;
  0x00000040d541c00000000040c6fb8000000000409b9c000000000040d541800000000040c6fb0000000000409b98000000000040d541400000000040c6fa8000;
  0x00000040c6fd0000000000409ba8000000000040d542400000000040c6fc8000000000409ba4000000000040d542000000000040c6fc0000000000409ba00000;
  0x000000409bb4000000000040d543000000000040c6fe0000000000409bb0000000000040d542c00000000040c6fd8000000000409bac000000000040d5428000;
  0x00000040d543c00000000040c6ff8000000000409bbc000000000040d543800000000040c6ff0000000000409bb8000000000040d543400000000040c6fe8000;
  0x00000040c7010000000000409bc8000000000040d544400000000040c7008000000000409bc4000000000040d544000000000040c7000000000000409bc00000;
  0x000000409bd4000000000040d545000000000040c7020000000000409bd0000000000040d544c00000000040c7018000000000409bcc000000000040d5448000;
  0x00000040d545c00000000040c7038000000000409bdc000000000040d545800000000040c7030000000000409bd8000000000040d545400000000040c7028000;
  0x00000040c7050000000000409be8000000000040d546400000000040c7048000000000409be4000000000040d546000000000040c7040000000000409be00000;
  0x000000409bf4000000000040d547000000000040c7060000000000409bf0000000000040d546c00000000040c7058000000000409bec000000000040d5468000;
  0x00000040d547c00000000040c7078000000000409bfc000000000040d547800000000040c7070000000000409bf8000000000040d547400000000040c7068000;
  0x00000040c7090000000000409c08000000000040d548400000000040c7088000000000409c04000000000040d548000000000040c7080000000000409c000000;
  0x000000409c14000000000040d549000000000040c70a0000000000409c10000000000040d548c00000000040c7098000000000409c0c000000000040d5488000;
  0x00000040d549c00000000040c70b8000000000409c1c000000000040d549800000000040c70b0000000000409c18000000000040d549400000000040c70a8000;
  0x00000040c70d0000000000409c28000000000040d54a400000000040c70c8000000000409c24000000000040d54a000000000040c70c0000000000409c200000;
  0x000000409c34000000000040d54b000000000040c70e0000000000409c30000000000040d54ac00000000040c70d8000000000409c2c000000000040d54a8000;
  0x00000040d54bc00000000040c70f8000000000409c3c000000000040d54b800000000040c70f0000000000409c38000000000040d54b400000000040c70e8000;
  0x00000040c7110000000000409c48000000000040d54c400000000040c7108000000000409c44000000000040d54c000000000040c7100000000000409c400000;
  0x000000409c54000000000040d54d000000000040c7120000000000409c50000000000040d54cc00000000040c7118000000000409c4c000000000040d54c8000;
  0x00000040d54dc00000000040c7138000000000409c5c000000000040d54d800000000040c7130000000000409c58000000000040d54d400000000040c7128000;
  0x00000040c7150000000000409c68000000000040d54e400000000040c7148000000000409c64000000000040d54e000000000040c7140000000000409c600000;
  0x000000409c74000000000040d54f000000000040c7160000000000409c70000000000040d54ec00000000040c7158000000000409c6c000000000040d54e8000;
  0x00000040d54fc00000000040c7178000000000409c7c000000000040d54f800000000040c7170000000000409c78000000000040d54f400000000040c7168000;
  0x00000040c7190000000000409c88000000000040d550400000000040c7188000000000409c84000000000040d550000000000040c7180000000000409c800000;
  0x000000409c94000000000040d551000000000040c71a0000000000409c90000000000040d550c00000000040c7198000000000409c8c000000000040d5508000;
  0x00000040d551c00000000040c71b8000000000409c9c000000000040d551800000000040c71b0000000000409c98000000000040d551400000000040c71a8000;
  0x00000040c71d0000000000409ca8000000000040d552400000000040c71c8000000000409ca4000000000040d552000000000040c71c0000000000409ca00000;
  0x000000409cb4000000000040d553000000000040c71e0000000000409cb0000000000040d552c00000000040c71d8000000000409cac000000000040d5528000;
  0x00000040d553c00000000040c71f8000000000409cbc000000000040d553800000000040c71f0000000000409cb8000000000040d553400000000040c71e8000;
  0x00000040c7210000000000409cc8000000000040d554400000000040c7208000000000409cc4000000000040d554000000000040c7200000000000409cc00000;
  0x000000409cd4000000000040d555000000000040c7220000000000409cd0000000000040d554c00000000040c7218000000000409ccc000000000040d5548000;
  0x00000040d555c00000000040c7238000000000409cdc000000000040d555800000000040c7230000000000409cd8000000000040d555400000000040c7228000;
  0x00000040c7250000000000409ce8000000000040d556400000000040c7248000000000409ce4000000000040d556000000000040c7240000000000409ce00000;
  0x000000409cf4000000000040d557000000000040c7260000000000409cf0000000000040d556c00000000040c7258000000000409cec000000000040d5568000;
  0x00000040d557c00000000040c7278000000000409cfc000000000040d557800000000040c7270000000000409cf8000000000040d557400000000040c7268000;
  0x00000040c7290000000000409d08000000000040d558400000000040c7288000000000409d04000000000040d558000000000040c7280000000000409d000000;
  0x000000409d14000000000040d559000000000040c72a0000000000409d10000000000040d558c00000000040c7298000000000409d0c000000000040d5588000;
  0x00000040d559c00000000040c72b8000000000409d1c000000000040d559800000000040c72b0000000000409d18000000000040d559400000000040c72a8000;
  0x00000040c72d0000000000409d28000000000040d55a400000000040c72c8000000000409d24000000000040d55a000000000040c72c0000000000409d200000;
  0x000000409d34000000000040d55b000000000040c72e0000000000409d30000000000040d55ac00000000040c72d8000000000409d2c000000000040d55a8000;
  0x00000040d55bc00000000040c72f8000000000409d3c000000000040d55b800000000040c72f0000000000409d38000000000040d55b400000000040c72e8000;
  0x00000040c7310000000000409d48000000000040d55c400000000040c7308000000000409d44000000000040d55c000000000040c7300000000000409d400000;
  0x000000409d54000000000040d55d000000000040c7320000000000409d50000000000040d55cc00000000040c7318000000000409d4c000000000040d55c8000;
  0x00000040d55dc00000000040c7338000000000409d5c000000000040d55d800000000040c7330000000000409d58000000000040d55d400000000040c7328000;
  0x00000040c7350000000000409d68000000000040d55e400000000040c7348000000000409d64000000000040d55e000000000040c7340000000000409d600000;
  0x000000409d74000000000040d55f000000000040c7360000000000409d70000000000040d55ec00000000040c7358000000000409d6c000000000040d55e8000;
  0x00000040d55fc00000000040c7378000000000409d7c000000000040d55f800000000040c7370000000000409d78000000000040d55f400000000040c7368000;
  0x00000040c7390000000000409d88000000000040d560400000000040c7388000000000409d84000000000040d560000000000040c7380000000000409d800000;
  0x000000409d94000000000040d561000000000040c73a0000000000409d90000000000040d560c00000000040c7398000000000409d8c000000000040d5608000;
  0x00000040d561c00000000040c73b8000000000409d9c000000000040d561800000000040c73b0000000000409d98000000000040d561400000000040c73a8000;
  0x00000040c73d0000000000409da8000000000040d562400000000040c73c8000000000409da4000000000040d562000000000040c73c0000000000409da00000;
  0x000000409db4000000000040d563000000000040c73e0000000000409db0000000000040d562c00000000040c73d8000000000409dac000000000040d5628000;
  0x00000040d563c00000000040c73f8000000000409dbc000000000040d563800000000040c73f0000000000409db8000000000040d563400000000040c73e8000;
  0x00000040c7410000000000409dc8000000000040d564400000000040c7408000000000409dc4000000000040d564000000000040c7400000000000409dc00000;
  0x000000409dd4000000000040d565000000000040c7420000000000409dd0000000000040d564c00000000040c7418000000000409dcc000000000040d5648000;
  0x00000040d565c00000000040c7438000000000409ddc000000000040d565800000000040c7430000000000409dd8000000000040d565400000000040c7428000;
  0x00000040c7450000000000409de8000000000040d566400000000040c7448000000000409de4000000000040d566000000000040c7440000000000409de00000;
  0x000000409df4000000000040d567000000000040c7460000000000409df0000000000040d566c00000000040c7458000000000409dec000000000040d5668000;
  0x00000040d567c00000000040c7478000000000409dfc000000000040d567800000000040c7470000000000409df8000000000040d567400000000040c7468000;
  0x00000040c7490000000000409e08000000000040d568400000000040c7488000000000409e04000000000040d568000000000040c7480000000000409e000000;
  0x000000409e14000000000040d569000000000040c74a0000000000409e10000000000040d568c00000000040c7498000000000409e0c000000000040d5688000;
  0x00000040d569c00000000040c74b8000000000409e1c000000000040d569800000000040c74b0000000000409e18000000000040d569400000000040c74a8000;
  0x00000040c74d0000000000409e28000000000040d56a400000000040c74c8000000000409e24000000000040d56a000000000040c74c0000000000409e200000;
  0x000000409e34000000000040d56b000000000040c74e0000000000409e30000000000040d56ac00000000040c74d8000000000409e2c000000000040d56a8000;
  0x00000040d56bc00000000040c74f8000000000409e3c000000000040d56b800000000040c74f0000000000409e38000000000040d56b400000000040c74e8000;
  0x00000040c7510000000000409e48000000000040d56c400000000040c7508000000000409e44000000000040d56c000000000040c7500000000000409e400000;
  0x000000409e54000000000040d56d000000000040c7520000000000409e50000000000040d56cc00000000040c7518000000000409e4c000000000040d56c8000;
  0x00000040d56dc00000000040c7538000000000409e5c000000000040d56d800000000040c7530000000000409e58000000000040d56d400000000040c7528000;
  0x00000040c7550000000000409e68000000000040d56e400000000040c7548000000000409e64000000000040d56e000000000040c7540000000000409e600000;
  0x000000409e74000000000040d56f000000000040c7560000000000409e70000000000040d56ec00000000040c7558000000000409e6c000000000040d56e8000;
  0x00000040d56fc00000000040c7578000000000409e7c000000000040d56f800000000040c7570000000000409e78000000000040d56f400000000040c7568000;
  0x00000040c7590000000000409e88000000000040d570400000000040c7588000000000409e84000000000040d570000000000040c7580000000000409e800000;
  0x000000409e94000000000040d571000000000040c75a0000000000409e90000000000040d570c00000000040c7598000000000409e8c000000000040d5708000;
  0x00000040d571c00000000040c75b8000000000409e9c000000000040d571800000000040c75b0000000000409e98000000000040d571400000000040c75a8000;
  0x00000040c75d0000000000409ea8000000000040d572400000000040c75c8000000000409ea4000000000040d572000000000040c75c0000000000409ea00000;
  0x000000409eb4000000000040d573000000000040c75e0000000000409eb0000000000040d572c00000000040c75d8000000000409eac000000000040d5728000;
  0x00000040d573c00000000040c75f8000000000409ebc000000000040d573800000000040c75f0000000000409eb8000000000040d573400000000040c75e8000;
  0x00000040c7610000000000409ec8000000000040d574400000000040c7608000000000409ec4000000000040d574000000000040c7600000000000409ec00000;
  0x000000409ed4000000000040d575000000000040c7620000000000409ed0000000000040d574c00000000040c7618000000000409ecc000000000040d5748000;
  0x00000040d575c00000000040c7638000000000409edc000000000040d575800000000040c7630000000000409ed8000000000040d575400000000040c7628000;
  0x00000040c7650000000000409ee8000000000040d576400000000040c7648000000000409ee4000000000040d576000000000040c7640000000000409ee00000;
  0x000000409ef4000000000040d577000000000040c7660000000000409ef0000000000040d576c00000000040c7658000000000409eec000000000040d5768000;
  0x00000040d577c00000000040c7678000000000409efc000000000040d577800000000040c7670000000000409ef8000000000040d577400000000040c7668000;
  0x00000040c7690000000000409f08000000000040d578400000000040c7688000000000409f04000000000040d578000000000040c7680000000000409f000000;
  0x000000409f14000000000040d579000000000040c76a0000000000409f10000000000040d578c00000000040c7698000000000409f0c000000000040d5788000;
  0x00000040d579c00000000040c76b8000000000409f1c000000000040d579800000000040c76b0000000000409f18000000000040d579400000000040c76a8000;
  0x00000040c76d0000000000409f28000000000040d57a400000000040c76c8000000000409f24000000000040d57a000000000040c76c0000000000409f200000;
  0x000000409f34000000000040d57b000000000040c76e0000000000409f30000000000040d57ac00000000040c76d8000000000409f2c000000000040d57a8000;
  0x53445440d57bc00000000040c76f8000000000409f3c000000000040d57b800000000040c76f0000000000409f38000000000040d57b400000000040c76e8000;
  0xf4000000010000000a0000001427346863272f27657275746375727473272f0000001200000003000000000000008e0000000000002f6e000012690000002e6d;
  0x73272f000000120000000000000000000001f4000000010000000a0000001427356863272f27657275746375727473272f000000120000000000000000000001;
  0x0040e8a8800000000040e3c6800000000040ddc900000000000000000000000000000001f4000000010000000a0000001427366863272f276572757463757274;
  0x0040e3c6e00000000040ddc9c00000000040e8a8c00000000040e3c6c00000000040ddc9800000000040e8a8a00000000040e3c6a00000000040ddc940000000;
  0x0040ddca800000000040e8a9200000000040e3c7200000000040ddca400000000040e8a9000000000040e3c7000000000040ddca000000000040e8a8e0000000;
  0x0040e8a9800000000040e3c7800000000040ddcb000000000040e8a9600000000040e3c7600000000040ddcac00000000040e8a9400000000040e3c740000000;
  0x0040e3c7e00000000040ddcbc00000000040e8a9c00000000040e3c7c00000000040ddcb800000000040e8a9a00000000040e3c7a00000000040ddcb40000000;
  0x0040ddcc800000000040e8aa200000000040e3c8200000000040ddcc400000000040e8aa000000000040e3c8000000000040ddcc000000000040e8a9e0000000;
  0x0040e8aa800000000040e3c8800000000040ddcd000000000040e8aa600000000040e3c8600000000040ddccc00000000040e8aa400000000040e3c840000000;
  0x0040e3c8e00000000040ddcdc00000000040e8aac00000000040e3c8c00000000040ddcd800000000040e8aaa00000000040e3c8a00000000040ddcd40000000;
  0x0040ddce800000000040e8ab200000000040e3c9200000000040ddce400000000040e8ab000000000040e3c9000000000040ddce000000000040e8aae0000000;
  0x0040e8ab800000000040e3c9800000000040ddcf000000000040e8ab600000000040e3c9600000000040ddcec00000000040e8ab400000000040e3c940000000;
  0x0040e3c9e00000000040ddcfc00000000040e8abc00000000040e3c9c00000000040ddcf800000000040e8aba00000000040e3c9a00000000040ddcf40000000;
  0x0040ddd0800000000040e8ac200000000040e3ca200000000040ddd0400000000040e8ac000000000040e3ca000000000040ddd0000000000040e8abe0000000;
  0x0040e8ac800000000040e3ca800000000040ddd1000000000040e8ac600000000040e3ca600000000040ddd0c00000000040e8ac400000000040e3ca40000000;
  0x0040e3cae00000000040ddd1c00000000040e8acc00000000040e3cac00000000040ddd1800000000040e8aca00000000040e3caa00000000040ddd140000000;
  0x0040ddd2800000000040e8ad200000000040e3cb200000000040ddd2400000000040e8ad000000000040e3cb000000000040ddd2000000000040e8ace0000000;
  0x0040e8ad800000000040e3cb800000000040ddd3000000000040e8ad600000000040e3cb600000000040ddd2c00000000040e8ad400000000040e3cb40000000;
  0x0040e3cbe00000000040ddd3c00000000040e8adc00000000040e3cbc00000000040ddd3800000000040e8ada00000000040e3cba00000000040ddd340000000;
  0x0040ddd4800000000040e8ae200000000040e3cc200000000040ddd4400000000040e8ae000000000040e3cc000000000040ddd4000000000040e8ade0000000;
  0x0040e8ae800000000040e3cc800000000040ddd5000000000040e8ae600000000040e3cc600000000040ddd4c00000000040e8ae400000000040e3cc40000000;
  0x0040e3cce00000000040ddd5c00000000040e8aec00000000040e3ccc00000000040ddd5800000000040e8aea00000000040e3cca00000000040ddd540000000;
  0x0040ddd6800000000040e8af200000000040e3cd200000000040ddd6400000000040e8af000000000040e3cd000000000040ddd6000000000040e8aee0000000;
  0x0040e8af800000000040e3cd800000000040ddd7000000000040e8af600000000040e3cd600000000040ddd6c00000000040e8af400000000040e3cd40000000;
  0x0040e3cde00000000040ddd7c00000000040e8afc00000000040e3cdc00000000040ddd7800000000040e8afa00000000040e3cda00000000040ddd740000000;
  0x0040ddd8800000000040e8b0200000000040e3ce200000000040ddd8400000000040e8b0000000000040e3ce000000000040ddd8000000000040e8afe0000000;
  0x0040e8b0800000000040e3ce800000000040ddd9000000000040e8b0600000000040e3ce600000000040ddd8c00000000040e8b0400000000040e3ce40000000;
  0x0040e3cee00000000040ddd9c00000000040e8b0c00000000040e3cec00000000040ddd9800000000040e8b0a00000000040e3cea00000000040ddd940000000;
  0x0040ddda800000000040e8b1200000000040e3cf200000000040ddda400000000040e8b1000000000040e3cf000000000040ddda000000000040e8b0e0000000;
  0x0040e8b1800000000040e3cf800000000040dddb000000000040e8b1600000000040e3cf600000000040dddac00000000040e8b1400000000040e3cf40000000;
  0x0040e3cfe00000000040dddbc00000000040e8b1c00000000040e3cfc00000000040dddb800000000040e8b1a00000000040e3cfa00000000040dddb40000000;
  0x0040dddc800000000040e8b2200000000040e3d0200000000040dddc400000000040e8b2000000000040e3d0000000000040dddc000000000040e8b1e0000000;
  0x0040e8b2800000000040e3d0800000000040dddd000000000040e8b2600000000040e3d0600000000040dddcc00000000040e8b2400000000040e3d040000000;
  0x0040e3d0e00000000040ddddc00000000040e8b2c00000000040e3d0c00000000040dddd800000000040e8b2a00000000040e3d0a00000000040dddd40000000;
  0x0040ddde800000000040e8b3200000000040e3d1200000000040ddde400000000040e8b3000000000040e3d1000000000040ddde000000000040e8b2e0000000;
  0x0040e8b3800000000040e3d1800000000040dddf000000000040e8b3600000000040e3d1600000000040dddec00000000040e8b3400000000040e3d140000000;
  0x0040e3d1e00000000040dddfc00000000040e8b3c00000000040e3d1c00000000040dddf800000000040e8b3a00000000040e3d1a00000000040dddf40000000;
  0x0040dde0800000000040e8b4200000000040e3d2200000000040dde0400000000040e8b4000000000040e3d2000000000040dde0000000000040e8b3e0000000;
  0x0040e8b4800000000040e3d2800000000040dde1000000000040e8b4600000000040e3d2600000000040dde0c00000000040e8b4400000000040e3d240000000;
  0x0040e3d2e00000000040dde1c00000000040e8b4c00000000040e3d2c00000000040dde1800000000040e8b4a00000000040e3d2a00000000040dde140000000;
  0x0040dde2800000000040e8b5200000000040e3d3200000000040dde2400000000040e8b5000000000040e3d3000000000040dde2000000000040e8b4e0000000;
  0x0040e8b5800000000040e3d3800000000040dde3000000000040e8b5600000000040e3d3600000000040dde2c00000000040e8b5400000000040e3d340000000;
  0x0040e3d3e00000000040dde3c00000000040e8b5c00000000040e3d3c00000000040dde3800000000040e8b5a00000000040e3d3a00000000040dde340000000;
  0x0040dde4800000000040e8b6200000000040e3d4200000000040dde4400000000040e8b6000000000040e3d4000000000040dde4000000000040e8b5e0000000;
  0x0040e8b6800000000040e3d4800000000040dde5000000000040e8b6600000000040e3d4600000000040dde4c00000000040e8b6400000000040e3d440000000;
  0x0040e3d4e00000000040dde5c00000000040e8b6c00000000040e3d4c00000000040dde5800000000040e8b6a00000000040e3d4a00000000040dde540000000;
  0x0040dde6800000000040e8b7200000000040e3d5200000000040dde6400000000040e8b7000000000040e3d5000000000040dde6000000000040e8b6e0000000;
  0x0040e8b7800000000040e3d5800000000040dde7000000000040e8b7600000000040e3d5600000000040dde6c00000000040e8b7400000000040e3d540000000;
  0x0040e3d5e00000000040dde7c00000000040e8b7c00000000040e3d5c00000000040dde7800000000040e8b7a00000000040e3d5a00000000040dde740000000;
  0x0040dde8800000000040e8b8200000000040e3d6200000000040dde8400000000040e8b8000000000040e3d6000000000040dde8000000000040e8b7e0000000;
  0x0040e8b8800000000040e3d6800000000040dde9000000000040e8b8600000000040e3d6600000000040dde8c00000000040e8b8400000000040e3d640000000;
  0x0040e3d6e00000000040dde9c00000000040e8b8c00000000040e3d6c00000000040dde9800000000040e8b8a00000000040e3d6a00000000040dde940000000;
  0x0040ddea800000000040e8b9200000000040e3d7200000000040ddea400000000040e8b9000000000040e3d7000000000040ddea000000000040e8b8e0000000;
  0x0040e8b9800000000040e3d7800000000040ddeb000000000040e8b9600000000040e3d7600000000040ddeac00000000040e8b9400000000040e3d740000000;
  0x0040e3d7e00000000040ddebc00000000040e8b9c00000000040e3d7c00000000040ddeb800000000040e8b9a00000000040e3d7a00000000040ddeb40000000;
  0x0040ddec800000000040e8ba200000000040e3d8200000000040ddec400000000040e8ba000000000040e3d8000000000040ddec000000000040e8b9e0000000;
  0x0040e8ba800000000040e3d8800000000040dded000000000040e8ba600000000040e3d8600000000040ddecc00000000040e8ba400000000040e3d840000000;
  0x0040e3d8e00000000040ddedc00000000040e8bac00000000040e3d8c00000000040dded800000000040e8baa00000000040e3d8a00000000040dded40000000;
  0x0040ddee800000000040e8bb200000000040e3d9200000000040ddee400000000040e8bb000000000040e3d9000000000040ddee000000000040e8bae0000000;
  0x0040e8bb800000000040e3d9800000000040ddef000000000040e8bb600000000040e3d9600000000040ddeec00000000040e8bb400000000040e3d940000000;
  0x0040e3d9e00000000040ddefc00000000040e8bbc00000000040e3d9c00000000040ddef800000000040e8bba00000000040e3d9a00000000040ddef40000000;
  0x0040ddf0800000000040e8bc200000000040e3da200000000040ddf0400000000040e8bc000000000040e3da000000000040ddf0000000000040e8bbe0000000;
  0x0040e8bc800000000040e3da800000000040ddf1000000000040e8bc600000000040e3da600000000040ddf0c00000000040e8bc400000000040e3da40000000;
  0x0040e3dae00000000040ddf1c00000000040e8bcc00000000040e3dac00000000040ddf1800000000040e8bca00000000040e3daa00000000040ddf140000000;
  0x0040ddf2800000000040e8bd200000000040e3db200000000040ddf2400000000040e8bd000000000040e3db000000000040ddf2000000000040e8bce0000000;
  0x0040e8bd800000000040e3db800000000040ddf3000000000040e8bd600000000040e3db600000000040ddf2c00000000040e8bd400000000040e3db40000000;
  0x0040e3dbe00000000040ddf3c00000000040e8bdc00000000040e3dbc00000000040ddf3800000000040e8bda00000000040e3dba00000000040ddf340000000;
  0x0040ddf4800000000040e8be200000000040e3dc200000000040ddf4400000000040e8be000000000040e3dc000000000040ddf4000000000040e8bde0000000;
  0x0040e8be800000000040e3dc800000000040ddf5000000000040e8be600000000040e3dc600000000040ddf4c00000000040e8be400000000040e3dc40000000;
  0x0040e3dce00000000040ddf5c00000000040e8bec00000000040e3dcc00000000040ddf5800000000040e8bea00000000040e3dca00000000040ddf540000000;
  0x0040ddf6800000000040e8bf200000000040e3dd200000000040ddf6400000000040e8bf000000000040e3dd000000000040ddf6000000000040e8bee0000000;
  0x0040e8bf800000000040e3dd800000000040ddf7000000000040e8bf600000000040e3dd600000000040ddf6c00000000040e8bf400000000040e3dd40000000;
  0x0040e3dde00000000040ddf7c00000000040e8bfc00000000040e3ddc00000000040ddf7800000000040e8bfa00000000040e3dda00000000040ddf740000000;
  0x0040ddf8800000000040e8c0200000000040e3de200000000040ddf8400000000040e8c0000000000040e3de000000000040ddf8000000000040e8bfe0000000;
  0x0040e8c0800000000040e3de800000000040ddf9000000000040e8c0600000000040e3de600000000040ddf8c00000000040e8c0400000000040e3de40000000;
  0x0040e3dee00000000040ddf9c00000000040e8c0c00000000040e3dec00000000040ddf9800000000040e8c0a00000000040e3dea00000000040ddf940000000;
  0x0040ddfa800000000040e8c1200000000040e3df200000000040ddfa400000000040e8c1000000000040e3df000000000040ddfa000000000040e8c0e0000000;
  0x0040e8c1800000000040e3df800000000040ddfb000000000040e8c1600000000040e3df600000000040ddfac00000000040e8c1400000000040e3df40000000;
  0x0040e3dfe00000000040ddfbc00000000040e8c1c00000000040e3dfc00000000040ddfb800000000040e8c1a00000000040e3dfa00000000040ddfb40000000;
  0x0040ddfc800000000040e8c2200000000040e3e0200000000040ddfc400000000040e8c2000000000040e3e0000000000040ddfc000000000040e8c1e0000000;
  0x0040e8c2800000000040e3e0800000000040ddfd000000000040e8c2600000000040e3e0600000000040ddfcc00000000040e8c2400000000040e3e040000000;
  0x0040e3e0e00000000040ddfdc00000000040e8c2c00000000040e3e0c00000000040ddfd800000000040e8c2a00000000040e3e0a00000000040ddfd40000000;
  0x0040ddfe800000000040e8c3200000000040e3e1200000000040ddfe400000000040e8c3000000000040e3e1000000000040ddfe000000000040e8c2e0000000;
  0x0040e8c3800000000040e3e1800000000040ddff000000000040e8c3600000000040e3e1600000000040ddfec00000000040e8c3400000000040e3e140000000;
  0x0040e3e1e00000000040ddffc00000000040e8c3c00000000040e3e1c00000000040ddff800000000040e8c3a00000000040e3e1a00000000040ddff40000000;
  0x0040de00800000000040e8c4200000000040e3e2200000000040de00400000000040e8c4000000000040e3e2000000000040de00000000000040e8c3e0000000;
  0x0040e8c4800000000040e3e2800000000040de01000000000040e8c4600000000040e3e2600000000040de00c00000000040e8c4400000000040e3e240000000;
  0x0040e3e2e00000000040de01c00000000040e8c4c00000000040e3e2c00000000040de01800000000040e8c4a00000000040e3e2a00000000040de0140000000;
  0x0040de02800000000040e8c5200000000040e3e3200000000040de02400000000040e8c5000000000040e3e3000000000040de02000000000040e8c4e0000000;
  0x0040e8c5800000000040e3e3800000000040de03000000000040e8c5600000000040e3e3600000000040de02c00000000040e8c5400000000040e3e340000000;
  0x0040e3e3e00000000040de03c00000000040e8c5c00000000040e3e3c00000000040de03800000000040e8c5a00000000040e3e3a00000000040de0340000000;
  0x0040de04800000000040e8c6200000000040e3e4200000000040de04400000000040e8c6000000000040e3e4000000000040de04000000000040e8c5e0000000;
  0x0040e8c6800000000040e3e4800000000040de05000000000040e8c6600000000040e3e4600000000040de04c00000000040e8c6400000000040e3e440000000;
  0x0040e3e4e00000000040de05c00000000040e8c6c00000000040e3e4c00000000040de05800000000040e8c6a00000000040e3e4a00000000040de0540000000;
  0x0040de06800000000040e8c7200000000040e3e5200000000040de06400000000040e8c7000000000040e3e5000000000040de06000000000040e8c6e0000000;
  0x0040e8c7800000000040e3e5800000000040de07000000000040e8c7600000000040e3e5600000000040de06c00000000040e8c7400000000040e3e540000000;
  0x0040e3e5e00000000040de07c00000000040e8c7c00000000040e3e5c00000000040de07800000000040e8c7a00000000040e3e5a00000000040de0740000000;
  0x0040de08800000000040e8c8200000000040e3e6200000000040de08400000000040e8c8000000000040e3e6000000000040de08000000000040e8c7e0000000;
  0x0040e8c8800000000040e3e6800000000040de09000000000040e8c8600000000040e3e6600000000040de08c00000000040e8c8400000000040e3e640000000;
  0x0040e3e6e00000000040de09c00000000040e8c8c00000000040e3e6c00000000040de09800000000040e8c8a00000000040e3e6a00000000040de0940000000;
  0x0040de0a800000000040e8c9200000000040e3e7200000000040de0a400000000040e8c9000000000040e3e7000000000040de0a000000000040e8c8e0000000;
  0x0040e8c9800000000040e3e7800000000040de0b000000000040e8c9600000000040e3e7600000000040de0ac00000000040e8c9400000000040e3e740000000;
  0x0040e3e7e00000000040de0bc00000000040e8c9c00000000040e3e7c00000000040de0b800000000040e8c9a00000000040e3e7a00000000040de0b40000000;
  0x0040de0c800000000040e8ca200000000040e3e8200000000040de0c400000000040e8ca000000000040e3e8000000000040de0c000000000040e8c9e0000000;
  0x0040e8ca800000000040e3e8800000000040de0d000000000040e8ca600000000040e3e8600000000040de0cc00000000040e8ca400000000040e3e840000000;
  0x0040e3e8e00000000040de0dc00000000040e8cac00000000040e3e8c00000000040de0d800000000040e8caa00000000040e3e8a00000000040de0d40000000;
  0x0040de0e800000000040e8cb200000000040e3e9200000000040de0e400000000040e8cb000000000040e3e9000000000040de0e000000000040e8cae0000000;
  0x0040e8cb800000000040e3e9800000000040de0f000000000040e8cb600000000040e3e9600000000040de0ec00000000040e8cb400000000040e3e940000000;
  0x0040e3e9e00000000040de0fc00000000040e8cbc00000000040e3e9c00000000040de0f800000000040e8cba00000000040e3e9a00000000040de0f40000000;
  0x0040de10800000000040e8cc200000000040e3ea200000000040de10400000000040e8cc000000000040e3ea000000000040de10000000000040e8cbe0000000;
  0x0040e8cc800000000040e3ea800000000040de11000000000040e8cc600000000040e3ea600000000040de10c00000000040e8cc400000000040e3ea40000000;
  0x0040e3eae00000000040de11c00000000040e8ccc00000000040e3eac00000000040de11800000000040e8cca00000000040e3eaa00000000040de1140000000;
  0x0040de12800000000040e8cd200000000040e3eb200000000040de12400000000040e8cd000000000040e3eb000000000040de12000000000040e8cce0000000;
  0x0040e8cd800000000040e3eb800000000040de13000000000040e8cd600000000040e3eb600000000040de12c00000000040e8cd400000000040e3eb40000000;
  0x0040e3ebe00000000040de13c00000000040e8cdc00000000040e3ebc00000000040de13800000000040e8cda00000000040e3eba00000000040de1340000000;
  0x0040de14800000000040e8ce200000000040e3ec200000000040de14400000000040e8ce000000000040e3ec000000000040de14000000000040e8cde0000000;
  0x0040e8ce800000000040e3ec800000000040de15000000000040e8ce600000000040e3ec600000000040de14c00000000040e8ce400000000040e3ec40000000;
  0x0040e3ece00000000040de15c00000000040e8cec00000000040e3ecc00000000040de15800000000040e8cea00000000040e3eca00000000040de1540000000;
  0x0040de16800000000040e8cf200000000040e3ed200000000040de16400000000040e8cf000000000040e3ed000000000040de16000000000040e8cee0000000;
  0x0040e8cf800000000040e3ed800000000040de17000000000040e8cf600000000040e3ed600000000040de16c00000000040e8cf400000000040e3ed40000000;
  0x0040e3ede00000000040de17c00000000040e8cfc00000000040e3edc00000000040de17800000000040e8cfa00000000040e3eda00000000040de1740000000;
  0x0040de18800000000040e8d0200000000040e3ee200000000040de18400000000040e8d0000000000040e3ee000000000040de18000000000040e8cfe0000000;
  0x0040e8d0800000000040e3ee800000000040de19000000000040e8d0600000000040e3ee600000000040de18c00000000040e8d0400000000040e3ee40000000;
  0x0040e3eee00000000040de19c00000000040e8d0c00000000040e3eec00000000040de19800000000040e8d0a00000000040e3eea00000000040de1940000000;
  0x0040de1a800000000040e8d1200000000040e3ef200000000040de1a400000000040e8d1000000000040e3ef000000000040de1a000000000040e8d0e0000000;
  0x0040e8d1800000000040e3ef800000000040de1b000000000040e8d1600000000040e3ef600000000040de1ac00000000040e8d1400000000040e3ef40000000;
  0x0040e3efe00000000040de1bc00000000040e8d1c00000000040e3efc00000000040de1b800000000040e8d1a00000000040e3efa00000000040de1b40000000;
  0x0040de1c800000000040e8d2200000000040e3f0200000000040de1c400000000040e8d2000000000040e3f0000000000040de1c000000000040e8d1e0000000;
  0x0040e8d2800000000040e3f0800000000040de1d000000000040e8d2600000000040e3f0600000000040de1cc00000000040e8d2400000000040e3f040000000;
  0x0040e3f0e00000000040de1dc00000000040e8d2c00000000040e3f0c00000000040de1d800000000040e8d2a00000000040e3f0a00000000040de1d40000000;
  0x0040de1e800000000040e8d3200000000040e3f1200000000040de1e400000000040e8d3000000000040e3f1000000000040de1e000000000040e8d2e0000000;
  0x0040e8d3800000000040e3f1800000000040de1f000000000040e8d3600000000040e3f1600000000040de1ec00000000040e8d3400000000040e3f140000000;
  0x0040e3f1e00000000040de1fc00000000040e8d3c00000000040e3f1c00000000040de1f800000000040e8d3a00000000040e3f1a00000000040de1f40000000;
  0x0040de20800000000040e8d4200000000040e3f2200000000040de20400000000040e8d4000000000040e3f2000000000040de20000000000040e8d3e0000000;
  0x0040e8d4800000000040e3f2800000000040de21000000000040e8d4600000000040e3f2600000000040de20c00000000040e8d4400000000040e3f240000000;
  0x0040e3f2e00000000040de21c00000000040e8d4c00000000040e3f2c00000000040de21800000000040e8d4a00000000040e3f2a00000000040de2140000000;
  0x0040de22800000000040e8d5200000000040e3f3200000000040de22400000000040e8d5000000000040e3f3000000000040de22000000000040e8d4e0000000;
  0x0040e8d5800000000040e3f3800000000040de23000000000040e8d5600000000040e3f3600000000040de22c00000000040e8d5400000000040e3f340000000;
  0x0040e3f3e00000000040de23c00000000040e8d5c00000000040e3f3c00000000040de23800000000040e8d5a00000000040e3f3a00000000040de2340000000;
  0x0040de24800000000040e8d6200000000040e3f4200000000040de24400000000040e8d6000000000040e3f4000000000040de24000000000040e8d5e0000000;
  0x0040e8d6800000000040e3f4800000000040de25000000000040e8d6600000000040e3f4600000000040de24c00000000040e8d6400000000040e3f440000000;
  0x0040e3f4e00000000040de25c00000000040e8d6c00000000040e3f4c00000000040de25800000000040e8d6a00000000040e3f4a00000000040de2540000000;
  0x0040de26800000000040e8d7200000000040e3f5200000000040de26400000000040e8d7000000000040e3f5000000000040de26000000000040e8d6e0000000;
  0x0040e8d7800000000040e3f5800000000040de27000000000040e8d7600000000040e3f5600000000040de26c00000000040e8d7400000000040e3f540000000;
  0x0040e3f5e00000000040de27c00000000040e8d7c00000000040e3f5c00000000040de27800000000040e8d7a00000000040e3f5a00000000040de2740000000;
  0x0040de28800000000040e8d8200000000040e3f6200000000040de28400000000040e8d8000000000040e3f6000000000040de28000000000040e8d7e0000000;
  0x0040e8d8800000000040e3f6800000000040de29000000000040e8d8600000000040e3f6600000000040de28c00000000040e8d8400000000040e3f640000000;
  0x0040e3f6e00000000040de29c00000000040e8d8c00000000040e3f6c00000000040de29800000000040e8d8a00000000040e3f6a00000000040de2940000000;
  0x0040de2a800000000040e8d9200000000040e3f7200000000040de2a400000000040e8d9000000000040e3f7000000000040de2a000000000040e8d8e0000000;
  0x0040e8d9800000000040e3f7800000000040de2b000000000040e8d9600000000040e3f7600000000040de2ac00000000040e8d9400000000040e3f740000000;
  0x0040e3f7e00000000040de2bc00000000040e8d9c00000000040e3f7c00000000040de2b800000000040e8d9a00000000040e3f7a00000000040de2b40000000;
  0x0040de2c800000000040e8da200000000040e3f8200000000040de2c400000000040e8da000000000040e3f8000000000040de2c000000000040e8d9e0000000;
  0x0040e8da800000000040e3f8800000000040de2d000000000040e8da600000000040e3f8600000000040de2cc00000000040e8da400000000040e3f840000000;
  0x0040e3f8e00000000040de2dc00000000040e8dac00000000040e3f8c00000000040de2d800000000040e8daa00000000040e3f8a00000000040de2d40000000;
  0x0040de2e800000000040e8db200000000040e3f9200000000040de2e400000000040e8db000000000040e3f9000000000040de2e000000000040e8dae0000000;
  0x0040e8db800000000040e3f9800000000040de2f000000000040e8db600000000040e3f9600000000040de2ec00000000040e8db400000000040e3f940000000;
  0x0040e3f9e00000000040de2fc00000000040e8dbc00000000040e3f9c00000000040de2f800000000040e8dba00000000040e3f9a00000000040de2f40000000;
  0x0040de30800000000040e8dc200000000040e3fa200000000040de30400000000040e8dc000000000040e3fa000000000040de30000000000040e8dbe0000000;
  0x0040e8dc800000000040e3fa800000000040de31000000000040e8dc600000000040e3fa600000000040de30c00000000040e8dc400000000040e3fa40000000;
  0x0040e3fae00000000040de31c00000000040e8dcc00000000040e3fac00000000040de31800000000040e8dca00000000040e3faa00000000040de3140000000;
  0x0040de32800000000040e8dd200000000040e3fb200000000040de32400000000040e8dd000000000040e3fb000000000040de32000000000040e8dce0000000;
  0x0040e8dd800000000040e3fb800000000040de33000000000040e8dd600000000040e3fb600000000040de32c00000000040e8dd400000000040e3fb40000000;
  0x0040e3fbe00000000040de33c00000000040e8ddc00000000040e3fbc00000000040de33800000000040e8dda00000000040e3fba00000000040de3340000000;
  0x0040de34800000000040e8de200000000040e3fc200000000040de34400000000040e8de000000000040e3fc000000000040de34000000000040e8dde0000000;
  0x0040e8de800000000040e3fc800000000040de35000000000040e8de600000000040e3fc600000000040de34c00000000040e8de400000000040e3fc40000000;
  0x0040e3fce00000000040de35c00000000040e8dec00000000040e3fcc00000000040de35800000000040e8dea00000000040e3fca00000000040de3540000000;
  0x0040de36800000000040e8df200000000040e3fd200000000040de36400000000040e8df000000000040e3fd000000000040de36000000000040e8dee0000000;
  0x0040e8df800000000040e3fd800000000040de37000000000040e8df600000000040e3fd600000000040de36c00000000040e8df400000000040e3fd40000000;
  0x0040e3fde00000000040de37c00000000040e8dfc00000000040e3fdc00000000040de37800000000040e8dfa00000000040e3fda00000000040de3740000000;
  0x0040de38800000000040e8e0200000000040e3fe200000000040de38400000000040e8e0000000000040e3fe000000000040de38000000000040e8dfe0000000;
  0x0040e8e0800000000040e3fe800000000040de39000000000040e8e0600000000040e3fe600000000040de38c00000000040e8e0400000000040e3fe40000000;
  0x0040e3fee00000000040de39c00000000040e8e0c00000000040e3fec00000000040de39800000000040e8e0a00000000040e3fea00000000040de3940000000;
  0x0040de3a800000000040e8e1200000000040e3ff200000000040de3a400000000040e8e1000000000040e3ff000000000040de3a000000000040e8e0e0000000;
  0x0040e8e1800000000040e3ff800000000040de3b000000000040e8e1600000000040e3ff600000000040de3ac00000000040e8e1400000000040e3ff40000000;
  0x0040e3ffe00000000040de3bc00000000040e8e1c00000000040e3ffc00000000040de3b800000000040e8e1a00000000040e3ffa00000000040de3b40000000;
  0x0040de3c800000000040e8e2200000000040e400200000000040de3c400000000040e8e2000000000040e400000000000040de3c000000000040e8e1e0000000;
  0x0040e8e2800000000040e400800000000040de3d000000000040e8e2600000000040e400600000000040de3cc00000000040e8e2400000000040e40040000000;
  0x0040e400e00000000040de3dc00000000040e8e2c00000000040e400c00000000040de3d800000000040e8e2a00000000040e400a00000000040de3d40000000;
  0x0040de3e800000000040e8e3200000000040e401200000000040de3e400000000040e8e3000000000040e401000000000040de3e000000000040e8e2e0000000;
  0x0040e8e3800000000040e401800000000040de3f000000000040e8e3600000000040e401600000000040de3ec00000000040e8e3400000000040e40140000000;
  0x0040e401e00000000040de3fc00000000040e8e3c00000000040e401c00000000040de3f800000000040e8e3a00000000040e401a00000000040de3f40000000;
  0x0040de40800000000040e8e4200000000040e402200000000040de40400000000040e8e4000000000040e402000000000040de40000000000040e8e3e0000000;
  0x0040e8e4800000000040e402800000000040de41000000000040e8e4600000000040e402600000000040de40c00000000040e8e4400000000040e40240000000;
  0x0040e402e00000000040de41c00000000040e8e4c00000000040e402c00000000040de41800000000040e8e4a00000000040e402a00000000040de4140000000;
  0x0040de42800000000040e8e5200000000040e403200000000040de42400000000040e8e5000000000040e403000000000040de42000000000040e8e4e0000000;
  0x0040e8e5800000000040e403800000000040de43000000000040e8e5600000000040e403600000000040de42c00000000040e8e5400000000040e40340000000;
  0x0040e403e00000000040de43c00000000040e8e5c00000000040e403c00000000040de43800000000040e8e5a00000000040e403a00000000040de4340000000;
  0x0040de44800000000040e8e6200000000040e404200000000040de44400000000040e8e6000000000040e404000000000040de44000000000040e8e5e0000000;
  0x0040e8e6800000000040e404800000000040de45000000000040e8e6600000000040e404600000000040de44c00000000040e8e6400000000040e40440000000;
  0x0040e404e00000000040de45c00000000040e8e6c00000000040e404c00000000040de45800000000040e8e6a00000000040e404a00000000040de4540000000;
  0x001100000000ffffffff276b636f6c62627573272f0000000b0000000400000000000000f00000000000002fd0000012690000000e6d53445440e8e6e0000000;
  0x0000036e6d756c6f4379617272415f494e0000000e0000000100000000000001f4000000010000000a0000001427316863272f276b636f6c62627573272f0000;
  0x6f4379617272415f494e0000000e0000000100000000000001f4000000010000000a0000001427326863272f276b636f6c62627573272f000000110000000000;
  0x5f494e0000000e0000000100000000000001f4000000010000000a0000001427336863272f276b636f6c62627573272f0000001100000001000000036e6d756c;
  0x00000000004010000000000000400800000000000040000000000000003ff0000000000000000000000000000000000002000000036e6d756c6f437961727241;
  0x000000000040280000000000004026000000000000402400000000000040220000000000004020000000000000401c0000000000004018000000000000401400;
  0x000000000040340000000000004033000000000000403200000000000040310000000000004030000000000000402e000000000000402c000000000000402a00;
  0x0000000000403c000000000000403b000000000000403a0000000000004039000000000000403800000000000040370000000000004036000000000000403500;
  0x000000000040420000000000004041800000000000404100000000000040408000000000004040000000000000403f000000000000403e000000000000403d00;
  0x00000000004046000000000000404580000000000040450000000000004044800000000000404400000000000040438000000000004043000000000000404280;
  0x0000000000404a000000000000404980000000000040490000000000004048800000000000404800000000000040478000000000004047000000000000404680;
  0x0000000000404e000000000000404d800000000000404d000000000000404c800000000000404c000000000000404b800000000000404b000000000000404a80;
  0x000000000040510000000000004050c00000000000405080000000000040504000000000004050000000000000404f800000000000404f000000000000404e80;
  0x000000000040530000000000004052c000000000004052800000000000405240000000000040520000000000004051c000000000004051800000000000405140;
  0x000000000040550000000000004054c000000000004054800000000000405440000000000040540000000000004053c000000000004053800000000000405340;
  0x000000000040570000000000004056c000000000004056800000000000405640000000000040560000000000004055c000000000004055800000000000405540;
  0x000000000040590000000000004058c000000000004058800000000000405840000000000040580000000000004057c000000000004057800000000000405740;
  0x0000000000405b000000000000405ac00000000000405a800000000000405a400000000000405a0000000000004059c000000000004059800000000000405940;
  0x0000000000405d000000000000405cc00000000000405c800000000000405c400000000000405c000000000000405bc00000000000405b800000000000405b40;
  0x0000000000405f000000000000405ec00000000000405e800000000000405e400000000000405e000000000000405dc00000000000405d800000000000405d40;
  0x000000000040608000000000004060600000000000406040000000000040602000000000004060000000000000405fc00000000000405f800000000000405f40;
  0x0000000000406180000000000040616000000000004061400000000000406120000000000040610000000000004060e000000000004060c000000000004060a0;
  0x0000000000406280000000000040626000000000004062400000000000406220000000000040620000000000004061e000000000004061c000000000004061a0;
  0x0000000000406380000000000040636000000000004063400000000000406320000000000040630000000000004062e000000000004062c000000000004062a0;
  0x0000000000406480000000000040646000000000004064400000000000406420000000000040640000000000004063e000000000004063c000000000004063a0;
  0x0000000000406580000000000040656000000000004065400000000000406520000000000040650000000000004064e000000000004064c000000000004064a0;
  0x0000000000406680000000000040666000000000004066400000000000406620000000000040660000000000004065e000000000004065c000000000004065a0;
  0x0000000000406780000000000040676000000000004067400000000000406720000000000040670000000000004066e000000000004066c000000000004066a0;
  0x0000000000406880000000000040686000000000004068400000000000406820000000000040680000000000004067e000000000004067c000000000004067a0;
  0x0000000000406980000000000040696000000000004069400000000000406920000000000040690000000000004068e000000000004068c000000000004068a0;
  0x0000000000406a800000000000406a600000000000406a400000000000406a200000000000406a0000000000004069e000000000004069c000000000004069a0;
  0x0000000000406b800000000000406b600000000000406b400000000000406b200000000000406b000000000000406ae00000000000406ac00000000000406aa0;
  0x0000000000406c800000000000406c600000000000406c400000000000406c200000000000406c000000000000406be00000000000406bc00000000000406ba0;
  0x0000000000406d800000000000406d600000000000406d400000000000406d200000000000406d000000000000406ce00000000000406cc00000000000406ca0;
  0x0000000000406e800000000000406e600000000000406e400000000000406e200000000000406e000000000000406de00000000000406dc00000000000406da0;
  0x0000000000406f800000000000406f600000000000406f400000000000406f200000000000406f000000000000406ee00000000000406ec00000000000406ea0;
  0x000000000040704000000000004070300000000000407020000000000040701000000000004070000000000000406fe00000000000406fc00000000000406fa0;
  0x00000000004070c000000000004070b000000000004070a000000000004070900000000000407080000000000040707000000000004070600000000000407050;
  0x0000000000407140000000000040713000000000004071200000000000407110000000000040710000000000004070f000000000004070e000000000004070d0;
  0x00000000004071c000000000004071b000000000004071a000000000004071900000000000407180000000000040717000000000004071600000000000407150;
  0x0000000000407240000000000040723000000000004072200000000000407210000000000040720000000000004071f000000000004071e000000000004071d0;
  0x00000000004072c000000000004072b000000000004072a000000000004072900000000000407280000000000040727000000000004072600000000000407250;
  0x0000000000407340000000000040733000000000004073200000000000407310000000000040730000000000004072f000000000004072e000000000004072d0;
  0x00000000004073c000000000004073b000000000004073a000000000004073900000000000407380000000000040737000000000004073600000000000407350;
  0x0000000000407440000000000040743000000000004074200000000000407410000000000040740000000000004073f000000000004073e000000000004073d0;
  0x00000000004074c000000000004074b000000000004074a000000000004074900000000000407480000000000040747000000000004074600000000000407450;
  0x0000000000407540000000000040753000000000004075200000000000407510000000000040750000000000004074f000000000004074e000000000004074d0;
  0x00000000004075c000000000004075b000000000004075a000000000004075900000000000407580000000000040757000000000004075600000000000407550;
  0x0000000000407640000000000040763000000000004076200000000000407610000000000040760000000000004075f000000000004075e000000000004075d0;
  0x00000000004076c000000000004076b000000000004076a000000000004076900000000000407680000000000040767000000000004076600000000000407650;
  0x0000000000407740000000000040773000000000004077200000000000407710000000000040770000000000004076f000000000004076e000000000004076d0;
  0x00000000004077c000000000004077b000000000004077a000000000004077900000000000407780000000000040777000000000004077600000000000407750;
  0x0000000000407840000000000040783000000000004078200000000000407810000000000040780000000000004077f000000000004077e000000000004077d0;
  0x00000000004078c000000000004078b000000000004078a000000000004078900000000000407880000000000040787000000000004078600000000000407850;
  0x0000000000407940000000000040793000000000004079200000000000407910000000000040790000000000004078f000000000004078e000000000004078d0;
  0x00000000004079c000000000004079b000000000004079a000000000004079900000000000407980000000000040797000000000004079600000000000407950;
  0x0000000000407a400000000000407a300000000000407a200000000000407a100000000000407a0000000000004079f000000000004079e000000000004079d0;
  0x0000000000407ac00000000000407ab00000000000407aa00000000000407a900000000000407a800000000000407a700000000000407a600000000000407a50;
  0x0000000000407b400000000000407b300000000000407b200000000000407b100000000000407b000000000000407af00000000000407ae00000000000407ad0;
  0x0000000000407bc00000000000407bb00000000000407ba00000000000407b900000000000407b800000000000407b700000000000407b600000000000407b50;
  0x0000000000407c400000000000407c300000000000407c200000000000407c100000000000407c000000000000407bf00000000000407be00000000000407bd0;
  0x0000000000407cc00000000000407cb00000000000407ca00000000000407c900000000000407c800000000000407c700000000000407c600000000000407c50;
  0x0000000000407d400000000000407d300000000000407d200000000000407d100000000000407d000000000000407cf00000000000407ce00000000000407cd0;
  0x0000000000407dc00000000000407db00000000000407da00000000000407d900000000000407d800000000000407d700000000000407d600000000000407d50;
  0x0000000000407e400000000000407e300000000000407e200000000000407e100000000000407e000000000000407df00000000000407de00000000000407dd0;
  0x0000000000407ec00000000000407eb00000000000407ea00000000000407e900000000000407e800000000000407e700000000000407e600000000000407e50;
  0x0000000000407f400000000000407f300000000000407f200000000000407f100000000000407f000000000000407ef00000000000407ee00000000000407ed0;
  0x0000000000407fc00000000000407fb00000000000407fa00000000000407f900000000000407f800000000000407f700000000000407f600000000000407f50;
  0x000000000040802000000000004080180000000000408010000000000040800800000000004080000000000000407ff00000000000407fe00000000000407fd0;
  0x00000000004080600000000000408058000000000040805000000000004080480000000000408040000000000040803800000000004080300000000000408028;
  0x00000000004080a00000000000408098000000000040809000000000004080880000000000408080000000000040807800000000004080700000000000408068;
  0x00000000004080e000000000004080d800000000004080d000000000004080c800000000004080c000000000004080b800000000004080b000000000004080a8;
  0x0000000000408120000000000040811800000000004081100000000000408108000000000040810000000000004080f800000000004080f000000000004080e8;
  0x00000000004081600000000000408158000000000040815000000000004081480000000000408140000000000040813800000000004081300000000000408128;
  0x00000000004081a00000000000408198000000000040819000000000004081880000000000408180000000000040817800000000004081700000000000408168;
  0x00000000004081e000000000004081d800000000004081d000000000004081c800000000004081c000000000004081b800000000004081b000000000004081a8;
  0x0000000000408220000000000040821800000000004082100000000000408208000000000040820000000000004081f800000000004081f000000000004081e8;
  0x00000000004082600000000000408258000000000040825000000000004082480000000000408240000000000040823800000000004082300000000000408228;
  0x00000000004082a00000000000408298000000000040829000000000004082880000000000408280000000000040827800000000004082700000000000408268;
  0x00000000004082e000000000004082d800000000004082d000000000004082c800000000004082c000000000004082b800000000004082b000000000004082a8;
  0x0000000000408320000000000040831800000000004083100000000000408308000000000040830000000000004082f800000000004082f000000000004082e8;
  0x00000000004083600000000000408358000000000040835000000000004083480000000000408340000000000040833800000000004083300000000000408328;
  0x00000000004083a00000000000408398000000000040839000000000004083880000000000408380000000000040837800000000004083700000000000408368;
  0x00000000004083e000000000004083d800000000004083d000000000004083c800000000004083c000000000004083b800000000004083b000000000004083a8;
  0x0000000000408420000000000040841800000000004084100000000000408408000000000040840000000000004083f800000000004083f000000000004083e8;
  0x00000000004084600000000000408458000000000040845000000000004084480000000000408440000000000040843800000000004084300000000000408428;
  0x00000000004084a00000000000408498000000000040849000000000004084880000000000408480000000000040847800000000004084700000000000408468;
  0x00000000004084e000000000004084d800000000004084d000000000004084c800000000004084c000000000004084b800000000004084b000000000004084a8;
  0x0000000000408520000000000040851800000000004085100000000000408508000000000040850000000000004084f800000000004084f000000000004084e8;
  0x00000000004085600000000000408558000000000040855000000000004085480000000000408540000000000040853800000000004085300000000000408528;
  0x00000000004085a00000000000408598000000000040859000000000004085880000000000408580000000000040857800000000004085700000000000408568;
  0x00000000004085e000000000004085d800000000004085d000000000004085c800000000004085c000000000004085b800000000004085b000000000004085a8;
  0x0000000000408620000000000040861800000000004086100000000000408608000000000040860000000000004085f800000000004085f000000000004085e8;
  0x00000000004086600000000000408658000000000040865000000000004086480000000000408640000000000040863800000000004086300000000000408628;
  0x00000000004086a00000000000408698000000000040869000000000004086880000000000408680000000000040867800000000004086700000000000408668;
  0x00000000004086e000000000004086d800000000004086d000000000004086c800000000004086c000000000004086b800000000004086b000000000004086a8;
  0x0000000000408720000000000040871800000000004087100000000000408708000000000040870000000000004086f800000000004086f000000000004086e8;
  0x00000000004087600000000000408758000000000040875000000000004087480000000000408740000000000040873800000000004087300000000000408728;
  0x00000000004087a00000000000408798000000000040879000000000004087880000000000408780000000000040877800000000004087700000000000408768;
  0x00000000004087e000000000004087d800000000004087d000000000004087c800000000004087c000000000004087b800000000004087b000000000004087a8;
  0x0000000000408820000000000040881800000000004088100000000000408808000000000040880000000000004087f800000000004087f000000000004087e8;
  0x00000000004088600000000000408858000000000040885000000000004088480000000000408840000000000040883800000000004088300000000000408828;
  0x00000000004088a00000000000408898000000000040889000000000004088880000000000408880000000000040887800000000004088700000000000408868;
  0x00000000004088e000000000004088d800000000004088d000000000004088c800000000004088c000000000004088b800000000004088b000000000004088a8;
  0x0000000000408920000000000040891800000000004089100000000000408908000000000040890000000000004088f800000000004088f000000000004088e8;
  0x00000000004089600000000000408958000000000040895000000000004089480000000000408940000000000040893800000000004089300000000000408928;
  0x00000000004089a00000000000408998000000000040899000000000004089880000000000408980000000000040897800000000004089700000000000408968;
  0x00000000004089e000000000004089d800000000004089d000000000004089c800000000004089c000000000004089b800000000004089b000000000004089a8;
  0x0000000000408a200000000000408a180000000000408a100000000000408a080000000000408a0000000000004089f800000000004089f000000000004089e8;
  0x0000000000408a600000000000408a580000000000408a500000000000408a480000000000408a400000000000408a380000000000408a300000000000408a28;
  0x0000000000408aa00000000000408a980000000000408a900000000000408a880000000000408a800000000000408a780000000000408a700000000000408a68;
  0x0000000000408ae00000000000408ad80000000000408ad00000000000408ac80000000000408ac00000000000408ab80000000000408ab00000000000408aa8;
  0x0000000000408b200000000000408b180000000000408b100000000000408b080000000000408b000000000000408af80000000000408af00000000000408ae8;
  0x0000000000408b600000000000408b580000000000408b500000000000408b480000000000408b400000000000408b380000000000408b300000000000408b28;
  0x0000000000408ba00000000000408b980000000000408b900000000000408b880000000000408b800000000000408b780000000000408b700000000000408b68;
  0x0000000000408be00000000000408bd80000000000408bd00000000000408bc80000000000408bc00000000000408bb80000000000408bb00000000000408ba8;
  0x0000000000408c200000000000408c180000000000408c100000000000408c080000000000408c000000000000408bf80000000000408bf00000000000408be8;
  0x0000000000408c600000000000408c580000000000408c500000000000408c480000000000408c400000000000408c380000000000408c300000000000408c28;
  0x0000000000408ca00000000000408c980000000000408c900000000000408c880000000000408c800000000000408c780000000000408c700000000000408c68;
  0x0000000000408ce00000000000408cd80000000000408cd00000000000408cc80000000000408cc00000000000408cb80000000000408cb00000000000408ca8;
  0x0000000000408d200000000000408d180000000000408d100000000000408d080000000000408d000000000000408cf80000000000408cf00000000000408ce8;
  0x0000000000408d600000000000408d580000000000408d500000000000408d480000000000408d400000000000408d380000000000408d300000000000408d28;
  0x0000000000408da00000000000408d980000000000408d900000000000408d880000000000408d800000000000408d780000000000408d700000000000408d68;
  0x0000000000408de00000000000408dd80000000000408dd00000000000408dc80000000000408dc00000000000408db80000000000408db00000000000408da8;
  0x0000000000408e200000000000408e180000000000408e100000000000408e080000000000408e000000000000408df80000000000408df00000000000408de8;
  0x0000000000408e600000000000408e580000000000408e500000000000408e480000000000408e400000000000408e380000000000408e300000000000408e28;
  0x0000000000408ea00000000000408e980000000000408e900000000000408e880000000000408e800000000000408e780000000000408e700000000000408e68;
  0x0000000000408ee00000000000408ed80000000000408ed00000000000408ec80000000000408ec00000000000408eb80000000000408eb00000000000408ea8;
  0x0000000000408f200000000000408f180000000000408f100000000000408f080000000000408f000000000000408ef80000000000408ef00000000000408ee8;
  0x0000000000408f600000000000408f580000000000408f500000000000408f480000000000408f400000000000408f380000000000408f300000000000408f28;
  0x0000000000408fa00000000000408f980000000000408f900000000000408f880000000000408f800000000000408f780000000000408f700000000000408f68;
  0x0000000000408fe00000000000408fd80000000000408fd00000000000408fc80000000000408fc00000000000408fb80000000000408fb00000000000408fa8;
  0x0000000000409010000000000040900c0000000000409008000000000040900400000000004090000000000000408ff80000000000408ff00000000000408fe8;
  0x0000000000409030000000000040902c000000000040902800000000004090240000000000409020000000000040901c00000000004090180000000000409014;
  0x0000000000409050000000000040904c000000000040904800000000004090440000000000409040000000000040903c00000000004090380000000000409034;
  0x0000000000409070000000000040906c000000000040906800000000004090640000000000409060000000000040905c00000000004090580000000000409054;
  0x0000000000409090000000000040908c000000000040908800000000004090840000000000409080000000000040907c00000000004090780000000000409074;
  0x00000000004090b000000000004090ac00000000004090a800000000004090a400000000004090a0000000000040909c00000000004090980000000000409094;
  0x00000000004090d000000000004090cc00000000004090c800000000004090c400000000004090c000000000004090bc00000000004090b800000000004090b4;
  0x00000000004090f000000000004090ec00000000004090e800000000004090e400000000004090e000000000004090dc00000000004090d800000000004090d4;
  0x0000000000409110000000000040910c00000000004091080000000000409104000000000040910000000000004090fc00000000004090f800000000004090f4;
  0x0000000000409130000000000040912c000000000040912800000000004091240000000000409120000000000040911c00000000004091180000000000409114;
  0x0000000000409150000000000040914c000000000040914800000000004091440000000000409140000000000040913c00000000004091380000000000409134;
  0x0000000000409170000000000040916c000000000040916800000000004091640000000000409160000000000040915c00000000004091580000000000409154;
  0x0000000000409190000000000040918c000000000040918800000000004091840000000000409180000000000040917c00000000004091780000000000409174;
  0x00000000004091b000000000004091ac00000000004091a800000000004091a400000000004091a0000000000040919c00000000004091980000000000409194;
  0x00000000004091d000000000004091cc00000000004091c800000000004091c400000000004091c000000000004091bc00000000004091b800000000004091b4;
  0x00000000004091f000000000004091ec00000000004091e800000000004091e400000000004091e000000000004091dc00000000004091d800000000004091d4;
  0x0000000000409210000000000040920c00000000004092080000000000409204000000000040920000000000004091fc00000000004091f800000000004091f4;
  0x0000000000409230000000000040922c000000000040922800000000004092240000000000409220000000000040921c00000000004092180000000000409214;
  0x0000000000409250000000000040924c000000000040924800000000004092440000000000409240000000000040923c00000000004092380000000000409234;
  0x0000000000409270000000000040926c000000000040926800000000004092640000000000409260000000000040925c00000000004092580000000000409254;
  0x0000000000409290000000000040928c000000000040928800000000004092840000000000409280000000000040927c00000000004092780000000000409274;
  0x00000000004092b000000000004092ac00000000004092a800000000004092a400000000004092a0000000000040929c00000000004092980000000000409294;
  0x00000000004092d000000000004092cc00000000004092c800000000004092c400000000004092c000000000004092bc00000000004092b800000000004092b4;
  0x00000000004092f000000000004092ec00000000004092e800000000004092e400000000004092e000000000004092dc00000000004092d800000000004092d4;
  0x0000000000409310000000000040930c00000000004093080000000000409304000000000040930000000000004092fc00000000004092f800000000004092f4;
  0x0000000000409330000000000040932c000000000040932800000000004093240000000000409320000000000040931c00000000004093180000000000409314;
  0x0000000000409350000000000040934c000000000040934800000000004093440000000000409340000000000040933c00000000004093380000000000409334;
  0x0000000000409370000000000040936c000000000040936800000000004093640000000000409360000000000040935c00000000004093580000000000409354;
  0x0000000000409390000000000040938c000000000040938800000000004093840000000000409380000000000040937c00000000004093780000000000409374;
  0x00000000004093b000000000004093ac00000000004093a800000000004093a400000000004093a0000000000040939c00000000004093980000000000409394;
  0x00000000004093d000000000004093cc00000000004093c800000000004093c400000000004093c000000000004093bc00000000004093b800000000004093b4;
  0x00000000004093f000000000004093ec00000000004093e800000000004093e400000000004093e000000000004093dc00000000004093d800000000004093d4;
  0x0000000000409410000000000040940c00000000004094080000000000409404000000000040940000000000004093fc00000000004093f800000000004093f4;
  0x0000000000409430000000000040942c000000000040942800000000004094240000000000409420000000000040941c00000000004094180000000000409414;
  0x0000000000409450000000000040944c000000000040944800000000004094440000000000409440000000000040943c00000000004094380000000000409434;
  0x0000000000409470000000000040946c000000000040946800000000004094640000000000409460000000000040945c00000000004094580000000000409454;
  0x0000000000409490000000000040948c000000000040948800000000004094840000000000409480000000000040947c00000000004094780000000000409474;
  0x00000000004094b000000000004094ac00000000004094a800000000004094a400000000004094a0000000000040949c00000000004094980000000000409494;
  0x00000000004094d000000000004094cc00000000004094c800000000004094c400000000004094c000000000004094bc00000000004094b800000000004094b4;
  0x00000000004094f000000000004094ec00000000004094e800000000004094e400000000004094e000000000004094dc00000000004094d800000000004094d4;
  0x0000000000409510000000000040950c00000000004095080000000000409504000000000040950000000000004094fc00000000004094f800000000004094f4;
  0x0000000000409530000000000040952c000000000040952800000000004095240000000000409520000000000040951c00000000004095180000000000409514;
  0x0000000000409550000000000040954c000000000040954800000000004095440000000000409540000000000040953c00000000004095380000000000409534;
  0x0000000000409570000000000040956c000000000040956800000000004095640000000000409560000000000040955c00000000004095580000000000409554;
  0x0000000000409590000000000040958c000000000040958800000000004095840000000000409580000000000040957c00000000004095780000000000409574;
  0x00000000004095b000000000004095ac00000000004095a800000000004095a400000000004095a0000000000040959c00000000004095980000000000409594;
  0x00000000004095d000000000004095cc00000000004095c800000000004095c400000000004095c000000000004095bc00000000004095b800000000004095b4;
  0x00000000004095f000000000004095ec00000000004095e800000000004095e400000000004095e000000000004095dc00000000004095d800000000004095d4;
  0x0000000000409610000000000040960c00000000004096080000000000409604000000000040960000000000004095fc00000000004095f800000000004095f4;
  0x0000000000409630000000000040962c000000000040962800000000004096240000000000409620000000000040961c00000000004096180000000000409614;
  0x0000000000409650000000000040964c000000000040964800000000004096440000000000409640000000000040963c00000000004096380000000000409634;
  0x0000000000409670000000000040966c000000000040966800000000004096640000000000409660000000000040965c00000000004096580000000000409654;
  0x0000000000409690000000000040968c000000000040968800000000004096840000000000409680000000000040967c00000000004096780000000000409674;
  0x00000000004096b000000000004096ac00000000004096a800000000004096a400000000004096a0000000000040969c00000000004096980000000000409694;
  0x00000000004096d000000000004096cc00000000004096c800000000004096c400000000004096c000000000004096bc00000000004096b800000000004096b4;
  0x00000000004096f000000000004096ec00000000004096e800000000004096e400000000004096e000000000004096dc00000000004096d800000000004096d4;
  0x0000000000409710000000000040970c00000000004097080000000000409704000000000040970000000000004096fc00000000004096f800000000004096f4;
  0x0000000000409730000000000040972c000000000040972800000000004097240000000000409720000000000040971c00000000004097180000000000409714;
  0x0000000000409750000000000040974c000000000040974800000000004097440000000000409740000000000040973c00000000004097380000000000409734;
  0xad000012690000000e6d53445440976c000000000040976800000000004097640000000000409760000000000040975c00000000004097580000000000409754;
  0x273869272f27736570797461746164272f0000001100000000ffffffff27736570797461746164272f0000000c00000002000000000000004900000000000000;
  0x27262524232221201f1e1d1c1b1a191817161514131211100f0e0d0c0b0a09080706050403020100000000000000000000000064000000010000000100000014;
  0x6d534454636261605f5e5d5c5b5a595857565554535251504f4e4d4c4b4a494847464544434241403f3e3d3c3b3a393837363534333231302f2e2d2c2b2a2928;
  0x000064000000010000000500000014273875272f27736570797461746164272f000000110000000100000000000000310000000000000095000012690000000e;
  0x363534333231302f2e2d2c2b2a292827262524232221201f1e1d1c1b1a191817161514131211100f0e0d0c0b0a09080706050403020100000000000000000000;
  0x000000000000fa000012690000000e6d534454636261605f5e5d5c5b5a595857565554535251504f4e4d4c4b4a494847464544434241403f3e3d3c3b3a393837;
  0x020001000000000000000000000000006400000001000000020000001427363169272f27736570797461746164272f0000001200000001000000000000003200;
  0x2200210020001f001e001d001c001b001a0019001800170016001500140013001200110010000f000e000d000c000b000a000900080007000600050004000300;
  0x4200410040003f003e003d003c003b003a0039003800370036003500340033003200310030002f002e002d002c002b002a002900280027002600250024002300;
  0x6200610060005f005e005d005c005b005a0059005800570056005500540053005200510050004f004e004d004c004b004a004900480047004600450044004300;
  0x0000060000001427363175272f27736570797461746164272f0000001200000001000000000000003200000000000000fa000012690000000e6d534454006300;
  0x170016001500140013001200110010000f000e000d000c000b000a00090008000700060005000400030002000100000000000000000000000000640000000100;
  0x370036003500340033003200310030002f002e002d002c002b002a0029002800270026002500240023002200210020001f001e001d001c001b001a0019001800;
  0x570056005500540053005200510050004f004e004d004c004b004a0049004800470046004500440043004200410040003f003e003d003c003b003a0039003800;
  0x64272f0000001200000001000000000000003200000000000001c2000012690000000e6d5344540063006200610060005f005e005d005c005b005a0059005800;
  0x0600000005000000040000000300000002000000010000000000000000000000000000006400000001000000030000001427323369272f277365707974617461;
  0x160000001500000014000000130000001200000011000000100000000f0000000e0000000d0000000c0000000b0000000a000000090000000800000007000000;
  0x260000002500000024000000230000002200000021000000200000001f0000001e0000001d0000001c0000001b0000001a000000190000001800000017000000;
  0x360000003500000034000000330000003200000031000000300000002f0000002e0000002d0000002c0000002b0000002a000000290000002800000027000000;
  0x460000004500000044000000430000004200000041000000400000003f0000003e0000003d0000003c0000003b0000003a000000390000003800000037000000;
  0x560000005500000054000000530000005200000051000000500000004f0000004e0000004d0000004c0000004b0000004a000000490000004800000047000000;
  0x690000000e6d534454000000630000006200000061000000600000005f0000005e0000005d0000005c0000005b0000005a000000590000005800000057000000;
  0x00000000000064000000010000000a0000001427343666272f27736570797461746164272f000000120000000100000000000000320000000000000352000012;
  0x000000401800000000000040140000000000004010000000000000400800000000000040000000000000003ff000000000000000000000000000000000000000;
  0x000000402c000000000000402a00000000000040280000000000004026000000000000402400000000000040220000000000004020000000000000401c000000;
  0x0000004036000000000000403500000000000040340000000000004033000000000000403200000000000040310000000000004030000000000000402e000000;
  0x000000403e000000000000403d000000000000403c000000000000403b000000000000403a000000000000403900000000000040380000000000004037000000;
  0x0000004043000000000000404280000000000040420000000000004041800000000000404100000000000040408000000000004040000000000000403f000000;
  0x00000040470000000000004046800000000000404600000000000040458000000000004045000000000000404480000000000040440000000000004043800000;
  0x000000404b000000000000404a800000000000404a00000000000040498000000000004049000000000000404880000000000040480000000000004047800000;
  0x000000404f000000000000404e800000000000404e000000000000404d800000000000404d000000000000404c800000000000404c000000000000404b800000;
  0x0000004051800000000000405140000000000040510000000000004050c00000000000405080000000000040504000000000004050000000000000404f800000;
  0x0000004053800000000000405340000000000040530000000000004052c000000000004052800000000000405240000000000040520000000000004051c00000;
  0x0000004055800000000000405540000000000040550000000000004054c000000000004054800000000000405440000000000040540000000000004053c00000;
  0x0000004057800000000000405740000000000040570000000000004056c000000000004056800000000000405640000000000040560000000000004055c00000;
  0x000000000000330000000000000037000012690000000e6d5344544058c000000000004058800000000000405840000000000040580000000000004057c00000;
  0x0000000e6d53445400010001000000000000000000000004000000010000000500000014276c6f6f62272f27736570797461746164272f000000130000000100;
  0x00000001000000440000001427706d617473656d6974272f27736570797461746164272f00000018000000010000000000000038000000000000006800001269;
  0x6d53445400000000e15a8cbb000000000000000000000000e15a8cba000000000000000000000000e15a8cb90000000000000000000000000000000000000003;
  0x010000000b00000014276465646e65747865272f27736570797461746164272f000000170000000100000000000000370000000000000055000012690000000e;
  0x00000000000052000012690000000e6d5344544000c000000000000000400080000000000000003fff8000000000000000000000000000000000000003000000;
  0x000000000000000003000000010008000c00000014273233665f78656c706d6f63272f27736570797461746164272f0000001a00000001000000000000003a00;
  0x2f0000001a00000001000000000000003a000000000000006a000012690000000e6d5344544040000041f000004000000041a000003f80000041200000000000;
  0xf00000000000004024000000000000000000000000000000000003000000010010000d00000014273436665f78656c706d6f63272f2773657079746174616427;
  0x00000300000000000003df00000000000003df00001269000000066d5344544008000000000000403e000000000000400000000000000040340000000000003f;
  0x0003000a0000000636317500000003fff600000002363169000000030500000005387500000002fb0000000138690000000200000010ffffffff2f0000000100;
  0x00000000001e0000000834367500000003ffffffffffffffe20000000434366900000003000000140000000732337500000003ffffffec000000033233690000;
  0x665f6c6f6f620000000a0100000021657572745f6c6f6f620000000940440000000000000000000a34366600000003c220000000000009323366000000030000;
  0x0000000000000000000b6465646e657478650000000800000000e15a8b89000000000000000000000044706d617473656d697400000009000000002165736c61;
  0x000000000000c04e0000000000000010000d3436665f78656c706d6f630000000b40c00000427000000008000c3233665f78656c706d6f630000000bc004c800;
  0x36317500000003fff600000002363169000000030500000005387500000002fb0000000138690000000200000010ffffffff2770756f7267272f00000008c018;
  0x000834367500000003ffffffffffffffe20000000434366900000003000000140000000732337500000003ffffffec0000000332336900000003000a00000006;
  0x000a0100000021657572745f6c6f6f620000000940440000000000000000000a34366600000003c22000000000000932336600000003000000000000001e0000;
  0x000b6465646e657478650000000800000000e15a8b89000000000000000000000044706d617473656d697400000009000000002165736c61665f6c6f6f620000;
  0x0000000000000010000d3436665f78656c706d6f630000000b40c00000427000000008000c3233665f78656c706d6f630000000bc004c8000000000000000000;
  0x00030500000005387500000002fb0000000138690000000200000010ffffffff276c656e6e616863272f2770756f7267272f00000012c018000000000000c04e;
  0x00000434366900000003000000140000000732337500000003ffffffec0000000332336900000003000a0000000636317500000003fff6000000023631690000;
  0x000940440000000000000000000a34366600000003c22000000000000932336600000003000000000000001e0000000834367500000003ffffffffffffffe200;
  0xe15a8b89000000000000000000000044706d617473656d697400000009000000002165736c61665f6c6f6f620000000a0100000021657572745f6c6f6f620000;
  0x6d6f630000000b40c00000427000000008000c3233665f78656c706d6f630000000bc004c8000000000000000000000b6465646e657478650000000800000000;
  0xc018000000000000c04e0000000000000010000d3436665f78656c70
].
(** tests/tdms-test-file.tdms. *)
Definition test_file : list byte :=
  firstn (N.to_nat 89052) (concat (map (fun n => chunk 64 (num n)) raw)).
