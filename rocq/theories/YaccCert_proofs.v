(** * The certificate for the tables of the parser

    Computed by a script, checked in YaccCheck_proofs.v: for each state, the
    nonterminals that can begin there, with what the context demands (Yacc_spec.v)
    and the number of the set of tokens that can follow; and the rules that a state
    is in the middle of. *)
From Coq Require Import NArith.
From Verif Require Import Base.
Local Open Scope Z_scope.

Definition token_sets : list N := [
  1;
  9;
  16333553612205046248604317319664303603712;
  16333553612205046248603164398159696756736;
  2251799813685248;
  21778071482940061661655974875633165533184;
  21778071482940061661656046933227205898992;
  10889035741470030830827987437816582766592;
  160;
  65696;
  10889035741470030833189170679251405373440;
  10889035741470030833189170679251405438976;
  5444517870735015415413993718908291383296;
  10889035741470030830827987437816582767616;
  1024;
  1361129467683753853853498429727072845824;
  13271014906065029333040690989347834429440;
  32;
  65568;
  34027652566303164789039471577681494753568;
  13271014906065029336582465851500068339712;
  560785289936896;
  560785290002432;
  173884292092747984092475872180012075450368;
  4722366482869645213696;
  7826497035330013917626697270439543046144;
  7826497035330013921168472132591776956416;
  173884292092747984088934097317859841540096;
  1180591620717411303424;
  173884292092747984087753505697142430236672;
  12249581083363103126502664672494392787232;
  13610710571329266584007833526168716919072;
  56827157871945152656352640740614165495808;
  56827157871945152659894415602766399406080;
  48660381065842629533231650162251728420864;
  46278401901247631031018946610720476758016;
  54104898936577644948645643881160019804160;
  2722258935367507707706996859454145691648;
  48660381065842629536773425024403962331136;
  78605229354885214318008615616247331028992;
  65334214448820184984967924626899496599552;
  78605229354885214321550390478399564939264;
  87112285931760246646623899502532662132736;
  88473415419726410105309659976924397568000;
  87112285931760246647804491123250073436160;
  133050408062235368472148552805330244861952;
  130668428897640369969935849253798993199104;
  133050408062235368475690327667482478772224;
  173884292092747984091295280559294664146944;
  4722654713245796925440;
  20282409609554916757910459514880;
  5903246333963208228864;
  65334214448820184994412657592638787026944;
  10889035741470030830828275668192734478336;
  10889035761752440435660537712857397067776;
  10889035741470030832008867288910145781760;
  67716193613415183487180628178430748262400;
  67716193613415183490722403040582982172672;
  89494265096355245148836603054063913795584;
  89494265096355245152378377916216147705856;
  173884292092747984092476160410388227162112;
  173884292092747984093656752031105638465536;
  5104238099962506209919700410985397354496;
  5104238099962506213461475273137631264768;
  157550738480542937841511524540417556086784;
  157550738480542937845053299402569789997056;
  173884292092747984093656463800729486753792;
  34027652566303164789039471577681528308000;
  34027652566303164789039471577681545085216;
  46278401901247631040463967806835918897152;
  46278401921530040645296229851500581486592;
  46278401901247631041644559427553330200576;
  21778071482940061661655974875637460500480;
  21778071482940061661655974875639607984128;
  46278401901247631040463679576459767185408;
  130668428897640369979380870449914435338240;
  130668428917922779584213132494579097927680;
  130668428897640369980561462070631846641664;
  130668428897640369979380582219538283626496]%N.

Definition wanted_cert : list (list (Z * (nat * bool * nat))) := [
  [(138, (0%nat, false, 0%nat)); (152, (0%nat, false, 0%nat)); (153, (0%nat, false, 1%nat)); (154,
  (0%nat, false, 1%nat))];
  [(144, (0%nat, false, 2%nat)); (155, (0%nat, false, 2%nat))];
  [];
  [];
  [(154, (0%nat, false, 1%nat))];
  [];
  [];
  [];
  [];
  [];
  [];
  [];
  [];
  [];
  [];
  [];
  [(156, (0%nat, false, 3%nat))];
  [];
  [];
  [(144, (0%nat, false, 3%nat))];
  [(157, (0%nat, false, 4%nat))];
  [];
  [(158, (0%nat, false, 5%nat)); (159, (0%nat, false, 6%nat)); (160, (0%nat, false, 6%nat)); (161,
  (0%nat, false, 6%nat)); (162, (0%nat, false, 6%nat)); (163, (0%nat, false, 6%nat)); (165, (0%nat,
  false, 6%nat)); (166, (0%nat, false, 6%nat)); (167, (0%nat, false, 6%nat)); (168, (0%nat, false,
  6%nat)); (173, (0%nat, false, 6%nat)); (174, (0%nat, false, 7%nat)); (175, (0%nat, false, 6%nat));
  (182, (0%nat, false, 8%nat)); (183, (0%nat, false, 9%nat))];
  [(182, (0%nat, false, 10%nat)); (183, (0%nat, false, 11%nat))];
  [];
  [];
  [(139, (0%nat, false, 12%nat))];
  [];
  [(144, (0%nat, false, 13%nat))];
  [(144, (0%nat, false, 14%nat))];
  [(144, (0%nat, false, 7%nat))];
  [];
  [(144, (0%nat, false, 7%nat))];
  [];
  [(202, (0%nat, false, 6%nat))];
  [];
  [(160, (0%nat, false, 6%nat)); (161, (0%nat, false, 6%nat)); (162, (0%nat, false, 6%nat)); (163,
  (0%nat, false, 6%nat)); (165, (0%nat, false, 6%nat)); (166, (0%nat, false, 6%nat)); (167, (0%nat,
  false, 6%nat)); (168, (0%nat, false, 6%nat)); (173, (0%nat, false, 6%nat)); (174, (0%nat, false,
  7%nat)); (175, (0%nat, false, 6%nat)); (182, (0%nat, false, 8%nat)); (183, (0%nat, false, 9%nat))];
  [];
  [];
  [];
  [];
  [];
  [];
  [];
  [];
  [];
  [];
  [];
  [];
  [];
  [(157, (0%nat, false, 4%nat))];
  [];
  [];
  [];
  [];
  [];
  [];
  [];
  [];
  [];
  [];
  [(144, (0%nat, false, 15%nat)); (176, (0%nat, false, 16%nat)); (182, (0%nat, false, 17%nat));
  (183, (0%nat, false, 18%nat)); (184, (0%nat, false, 5%nat)); (185, (0%nat, false, 19%nat)); (186,
  (0%nat, false, 19%nat)); (187, (0%nat, false, 7%nat)); (188, (0%nat, false, 7%nat)); (189, (0%nat,
  false, 7%nat)); (190, (0%nat, false, 19%nat)); (191, (0%nat, false, 19%nat)); (192, (0%nat, false,
  19%nat)); (193, (0%nat, false, 19%nat)); (197, (0%nat, false, 19%nat)); (198, (0%nat, false,
  19%nat)); (199, (0%nat, false, 19%nat)); (200, (0%nat, false, 19%nat)); (202, (0%nat, true,
  19%nat)); (203, (0%nat, false, 19%nat)); (204, (0%nat, false, 16%nat)); (205, (0%nat, false,
  16%nat)); (208, (0%nat, false, 16%nat)); (209, (0%nat, false, 16%nat)); (211, (0%nat, false,
  16%nat)); (212, (0%nat, false, 16%nat)); (213, (0%nat, false, 16%nat)); (214, (0%nat, false,
  16%nat)); (215, (0%nat, false, 16%nat)); (216, (0%nat, false, 16%nat)); (217, (0%nat, false,
  16%nat)); (218, (0%nat, false, 16%nat)); (219, (0%nat, false, 16%nat)); (220, (0%nat, false,
  16%nat)); (221, (0%nat, false, 16%nat)); (222, (0%nat, false, 16%nat)); (223, (0%nat, false,
  16%nat)); (224, (0%nat, false, 16%nat)); (225, (0%nat, false, 16%nat)); (226, (0%nat, false,
  16%nat)); (227, (0%nat, false, 16%nat)); (228, (0%nat, false, 20%nat)); (229, (0%nat, false,
  20%nat)); (230, (0%nat, false, 7%nat)); (231, (0%nat, false, 7%nat)); (232, (0%nat, false,
  16%nat))];
  [];
  [];
  [];
  [];
  [(140, (0%nat, false, 12%nat))];
  [(169, (0%nat, false, 6%nat))];
  [];
  [];
  [];
  [(182, (0%nat, false, 21%nat)); (183, (0%nat, false, 22%nat))];
  [(182, (0%nat, false, 21%nat)); (183, (0%nat, false, 22%nat))];
  [(141, (0%nat, false, 7%nat))];
  [];
  [(141, (0%nat, false, 7%nat))];
  [];
  [];
  [];
  [(205, (0%nat, false, 23%nat))];
  [];
  [(144, (0%nat, false, 15%nat)); (176, (0%nat, false, 16%nat)); (182, (0%nat, false, 17%nat));
  (183, (0%nat, false, 18%nat)); (204, (0%nat, false, 16%nat)); (205, (0%nat, false, 16%nat)); (208,
  (0%nat, false, 16%nat)); (209, (0%nat, false, 16%nat)); (211, (0%nat, false, 16%nat)); (212,
  (0%nat, false, 16%nat)); (213, (0%nat, false, 16%nat)); (214, (0%nat, false, 16%nat)); (215,
  (0%nat, false, 16%nat)); (216, (0%nat, false, 16%nat)); (217, (0%nat, false, 16%nat)); (218,
  (0%nat, false, 16%nat)); (219, (0%nat, false, 16%nat)); (220, (0%nat, false, 16%nat)); (221,
  (0%nat, false, 16%nat)); (222, (0%nat, false, 16%nat)); (223, (0%nat, false, 16%nat)); (224,
  (0%nat, false, 16%nat)); (225, (0%nat, false, 16%nat)); (226, (0%nat, false, 16%nat)); (227,
  (0%nat, false, 16%nat)); (228, (0%nat, false, 20%nat)); (229, (0%nat, false, 20%nat)); (232,
  (0%nat, false, 16%nat))];
  [];
  [];
  [];
  [];
  [(204, (0%nat, false, 24%nat))];
  [];
  [];
  [];
  [];
  [(144, (0%nat, false, 15%nat)); (176, (0%nat, false, 25%nat)); (182, (0%nat, false, 17%nat));
  (183, (0%nat, false, 18%nat)); (204, (0%nat, false, 25%nat)); (205, (0%nat, false, 25%nat)); (208,
  (0%nat, false, 25%nat)); (209, (0%nat, false, 25%nat)); (211, (0%nat, false, 25%nat)); (212,
  (0%nat, false, 25%nat)); (213, (0%nat, false, 25%nat)); (214, (0%nat, false, 25%nat)); (215,
  (0%nat, false, 25%nat)); (216, (0%nat, false, 25%nat)); (217, (0%nat, false, 25%nat)); (218,
  (0%nat, false, 25%nat)); (219, (0%nat, false, 25%nat)); (220, (0%nat, false, 25%nat)); (221,
  (0%nat, false, 25%nat)); (222, (0%nat, false, 25%nat)); (223, (0%nat, false, 25%nat)); (224,
  (0%nat, false, 25%nat)); (225, (0%nat, false, 25%nat)); (226, (0%nat, false, 25%nat)); (227,
  (0%nat, false, 25%nat)); (228, (0%nat, false, 26%nat)); (229, (0%nat, false, 26%nat)); (232,
  (0%nat, false, 25%nat))];
  [];
  [];
  [(202, (0%nat, false, 19%nat))];
  [];
  [];
  [];
  [];
  [];
  [];
  [(144, (0%nat, false, 27%nat)); (146, (0%nat, false, 28%nat)); (147, (0%nat, false, 29%nat))];
  [(143, (0%nat, false, 29%nat)); (144, (0%nat, false, 27%nat)); (145, (0%nat, false, 29%nat));
  (146, (0%nat, false, 27%nat))];
  [(144, (0%nat, false, 15%nat)); (176, (0%nat, false, 16%nat)); (182, (0%nat, false, 17%nat));
  (183, (0%nat, false, 18%nat)); (204, (0%nat, false, 16%nat)); (205, (0%nat, false, 16%nat)); (208,
  (0%nat, false, 16%nat)); (209, (0%nat, false, 16%nat)); (211, (0%nat, false, 16%nat)); (212,
  (0%nat, false, 16%nat)); (213, (0%nat, false, 16%nat)); (214, (0%nat, false, 16%nat)); (215,
  (0%nat, false, 16%nat)); (216, (0%nat, false, 16%nat)); (217, (0%nat, false, 16%nat)); (218,
  (0%nat, false, 16%nat)); (219, (0%nat, false, 16%nat)); (220, (0%nat, false, 16%nat)); (221,
  (0%nat, false, 16%nat)); (222, (0%nat, false, 16%nat)); (223, (0%nat, false, 16%nat)); (224,
  (0%nat, false, 16%nat)); (225, (0%nat, false, 16%nat)); (226, (0%nat, false, 16%nat)); (227,
  (0%nat, false, 16%nat)); (228, (0%nat, false, 20%nat)); (229, (0%nat, false, 20%nat)); (232,
  (0%nat, false, 16%nat))];
  [(205, (0%nat, false, 15%nat))];
  [(143, (0%nat, false, 30%nat)); (144, (0%nat, false, 31%nat)); (145, (0%nat, false, 30%nat));
  (146, (0%nat, false, 30%nat)); (176, (0%nat, false, 32%nat)); (182, (0%nat, false, 17%nat)); (183,
  (0%nat, false, 18%nat)); (204, (0%nat, false, 32%nat)); (205, (0%nat, false, 32%nat)); (208,
  (0%nat, false, 32%nat)); (209, (0%nat, false, 32%nat)); (211, (0%nat, false, 32%nat)); (212,
  (0%nat, false, 32%nat)); (213, (0%nat, false, 32%nat)); (214, (0%nat, false, 32%nat)); (215,
  (0%nat, false, 32%nat)); (216, (0%nat, false, 32%nat)); (217, (0%nat, false, 32%nat)); (218,
  (0%nat, false, 32%nat)); (219, (0%nat, false, 32%nat)); (220, (0%nat, false, 32%nat)); (221,
  (0%nat, false, 32%nat)); (222, (0%nat, false, 32%nat)); (223, (0%nat, false, 32%nat)); (224,
  (0%nat, false, 32%nat)); (225, (0%nat, false, 32%nat)); (226, (0%nat, false, 32%nat)); (227,
  (0%nat, false, 32%nat)); (228, (0%nat, false, 33%nat)); (229, (0%nat, false, 33%nat)); (232,
  (0%nat, false, 32%nat))];
  [(144, (0%nat, false, 15%nat)); (176, (0%nat, false, 16%nat)); (182, (0%nat, false, 17%nat));
  (183, (0%nat, false, 18%nat)); (204, (0%nat, false, 16%nat)); (205, (0%nat, false, 16%nat)); (208,
  (0%nat, false, 16%nat)); (209, (0%nat, false, 16%nat)); (211, (0%nat, false, 16%nat)); (212,
  (0%nat, false, 16%nat)); (213, (0%nat, false, 16%nat)); (214, (0%nat, false, 16%nat)); (215,
  (0%nat, false, 16%nat)); (216, (0%nat, false, 16%nat)); (217, (0%nat, false, 16%nat)); (218,
  (0%nat, false, 16%nat)); (219, (0%nat, false, 16%nat)); (220, (0%nat, false, 16%nat)); (221,
  (0%nat, false, 16%nat)); (222, (0%nat, false, 16%nat)); (223, (0%nat, false, 16%nat)); (224,
  (0%nat, false, 16%nat)); (225, (0%nat, false, 16%nat)); (226, (0%nat, false, 16%nat)); (227,
  (0%nat, false, 16%nat)); (228, (0%nat, false, 20%nat)); (229, (0%nat, false, 20%nat)); (232,
  (0%nat, false, 16%nat))];
  [(144, (0%nat, false, 15%nat)); (176, (0%nat, false, 16%nat)); (182, (0%nat, false, 17%nat));
  (183, (0%nat, false, 18%nat)); (204, (0%nat, false, 16%nat)); (205, (0%nat, false, 16%nat)); (208,
  (0%nat, false, 16%nat)); (209, (0%nat, false, 16%nat)); (211, (0%nat, false, 16%nat)); (212,
  (0%nat, false, 16%nat)); (213, (0%nat, false, 16%nat)); (214, (0%nat, false, 16%nat)); (215,
  (0%nat, false, 16%nat)); (216, (0%nat, false, 16%nat)); (217, (0%nat, false, 16%nat)); (218,
  (0%nat, false, 16%nat)); (219, (0%nat, false, 16%nat)); (220, (0%nat, false, 16%nat)); (221,
  (0%nat, false, 16%nat)); (222, (0%nat, false, 16%nat)); (223, (0%nat, false, 16%nat)); (224,
  (0%nat, false, 16%nat)); (225, (0%nat, false, 16%nat)); (226, (0%nat, false, 16%nat)); (227,
  (0%nat, false, 16%nat)); (228, (0%nat, false, 20%nat)); (229, (0%nat, false, 20%nat)); (232,
  (0%nat, false, 16%nat))];
  [(144, (0%nat, false, 15%nat)); (176, (0%nat, false, 16%nat)); (182, (0%nat, false, 17%nat));
  (183, (0%nat, false, 18%nat)); (204, (0%nat, false, 16%nat)); (205, (0%nat, false, 16%nat)); (208,
  (0%nat, false, 16%nat)); (209, (0%nat, false, 16%nat)); (211, (0%nat, false, 16%nat)); (212,
  (0%nat, false, 16%nat)); (213, (0%nat, false, 16%nat)); (214, (0%nat, false, 16%nat)); (215,
  (0%nat, false, 16%nat)); (216, (0%nat, false, 16%nat)); (217, (0%nat, false, 16%nat)); (218,
  (0%nat, false, 16%nat)); (219, (0%nat, false, 16%nat)); (220, (0%nat, false, 16%nat)); (221,
  (0%nat, false, 16%nat)); (222, (0%nat, false, 16%nat)); (223, (0%nat, false, 16%nat)); (224,
  (0%nat, false, 16%nat)); (225, (0%nat, false, 16%nat)); (226, (0%nat, false, 16%nat)); (227,
  (0%nat, false, 16%nat)); (228, (0%nat, false, 20%nat)); (229, (0%nat, false, 20%nat)); (232,
  (0%nat, false, 16%nat))];
  [];
  [(205, (0%nat, false, 15%nat))];
  [(144, (0%nat, false, 15%nat)); (176, (0%nat, false, 34%nat)); (180, (0%nat, false, 35%nat));
  (181, (0%nat, false, 35%nat)); (182, (0%nat, false, 17%nat)); (183, (0%nat, false, 18%nat)); (204,
  (0%nat, false, 34%nat)); (205, (0%nat, false, 36%nat)); (206, (0%nat, false, 37%nat)); (208,
  (0%nat, false, 34%nat)); (209, (0%nat, false, 34%nat)); (210, (0%nat, false, 35%nat)); (211,
  (0%nat, false, 34%nat)); (212, (0%nat, false, 34%nat)); (213, (0%nat, false, 34%nat)); (214,
  (0%nat, false, 34%nat)); (215, (0%nat, false, 34%nat)); (216, (0%nat, false, 34%nat)); (217,
  (0%nat, false, 34%nat)); (218, (0%nat, false, 34%nat)); (219, (0%nat, false, 34%nat)); (220,
  (0%nat, false, 34%nat)); (221, (0%nat, false, 34%nat)); (222, (0%nat, false, 34%nat)); (223,
  (0%nat, false, 34%nat)); (224, (0%nat, false, 34%nat)); (225, (0%nat, false, 34%nat)); (226,
  (0%nat, false, 34%nat)); (227, (0%nat, false, 34%nat)); (228, (0%nat, false, 38%nat)); (229,
  (0%nat, false, 38%nat)); (232, (0%nat, false, 34%nat))];
  [(144, (0%nat, false, 15%nat)); (176, (0%nat, false, 39%nat)); (182, (0%nat, false, 17%nat));
  (183, (0%nat, false, 18%nat)); (184, (0%nat, true, 5%nat)); (185, (0%nat, false, 19%nat)); (186,
  (0%nat, false, 19%nat)); (187, (0%nat, false, 7%nat)); (188, (0%nat, false, 7%nat)); (189, (0%nat,
  false, 7%nat)); (190, (0%nat, false, 19%nat)); (191, (0%nat, false, 19%nat)); (192, (0%nat, false,
  19%nat)); (193, (0%nat, false, 19%nat)); (197, (0%nat, false, 19%nat)); (198, (0%nat, false,
  19%nat)); (199, (0%nat, false, 19%nat)); (200, (0%nat, false, 19%nat)); (202, (0%nat, true,
  19%nat)); (203, (0%nat, false, 19%nat)); (204, (0%nat, false, 39%nat)); (205, (0%nat, false,
  39%nat)); (208, (0%nat, false, 39%nat)); (209, (0%nat, false, 39%nat)); (210, (0%nat, false,
  40%nat)); (211, (0%nat, false, 39%nat)); (212, (0%nat, false, 39%nat)); (213, (0%nat, false,
  39%nat)); (214, (0%nat, false, 39%nat)); (215, (0%nat, false, 39%nat)); (216, (0%nat, false,
  39%nat)); (217, (0%nat, false, 39%nat)); (218, (0%nat, false, 39%nat)); (219, (0%nat, false,
  39%nat)); (220, (0%nat, false, 39%nat)); (221, (0%nat, false, 39%nat)); (222, (0%nat, false,
  39%nat)); (223, (0%nat, false, 39%nat)); (224, (0%nat, false, 39%nat)); (225, (0%nat, false,
  39%nat)); (226, (0%nat, false, 39%nat)); (227, (0%nat, false, 39%nat)); (228, (0%nat, false,
  41%nat)); (229, (0%nat, false, 41%nat)); (230, (0%nat, false, 7%nat)); (231, (0%nat, false,
  7%nat)); (232, (0%nat, false, 39%nat))];
  [(142, (0%nat, false, 42%nat)); (143, (0%nat, false, 42%nat)); (144, (0%nat, false, 43%nat));
  (145, (0%nat, false, 42%nat)); (146, (0%nat, false, 44%nat)); (176, (0%nat, false, 45%nat)); (182,
  (0%nat, false, 17%nat)); (183, (0%nat, false, 18%nat)); (204, (0%nat, false, 45%nat)); (205,
  (0%nat, false, 45%nat)); (208, (0%nat, false, 45%nat)); (209, (0%nat, false, 45%nat)); (210,
  (0%nat, false, 46%nat)); (211, (0%nat, false, 45%nat)); (212, (0%nat, false, 45%nat)); (213,
  (0%nat, false, 45%nat)); (214, (0%nat, false, 45%nat)); (215, (0%nat, false, 45%nat)); (216,
  (0%nat, false, 45%nat)); (217, (0%nat, false, 45%nat)); (218, (0%nat, false, 45%nat)); (219,
  (0%nat, false, 45%nat)); (220, (0%nat, false, 45%nat)); (221, (0%nat, false, 45%nat)); (222,
  (0%nat, false, 45%nat)); (223, (0%nat, false, 45%nat)); (224, (0%nat, false, 45%nat)); (225,
  (0%nat, false, 45%nat)); (226, (0%nat, false, 45%nat)); (227, (0%nat, false, 45%nat)); (228,
  (0%nat, false, 47%nat)); (229, (0%nat, false, 47%nat)); (232, (0%nat, false, 45%nat))];
  [(144, (0%nat, false, 15%nat)); (176, (11%nat, false, 29%nat)); (182, (0%nat, false, 17%nat));
  (183, (0%nat, false, 18%nat)); (204, (11%nat, false, 29%nat)); (205, (11%nat, false, 29%nat));
  (208, (11%nat, false, 29%nat)); (209, (11%nat, false, 29%nat)); (211, (11%nat, false, 29%nat));
  (212, (11%nat, false, 29%nat)); (213, (11%nat, false, 29%nat)); (214, (11%nat, false, 29%nat));
  (215, (11%nat, false, 29%nat)); (216, (11%nat, false, 29%nat)); (217, (11%nat, false, 29%nat));
  (218, (11%nat, false, 29%nat)); (219, (11%nat, false, 29%nat)); (220, (11%nat, false, 29%nat));
  (221, (11%nat, false, 29%nat)); (222, (11%nat, false, 29%nat)); (223, (11%nat, false, 29%nat));
  (224, (11%nat, false, 29%nat)); (225, (11%nat, false, 29%nat)); (226, (11%nat, false, 29%nat));
  (227, (11%nat, false, 29%nat)); (228, (11%nat, false, 48%nat)); (229, (11%nat, false, 48%nat));
  (232, (11%nat, false, 29%nat))];
  [(144, (0%nat, false, 15%nat)); (176, (11%nat, false, 29%nat)); (182, (0%nat, false, 17%nat));
  (183, (0%nat, false, 18%nat)); (204, (11%nat, false, 29%nat)); (205, (11%nat, false, 29%nat));
  (208, (11%nat, false, 29%nat)); (209, (11%nat, false, 29%nat)); (211, (11%nat, false, 29%nat));
  (212, (11%nat, false, 29%nat)); (213, (11%nat, false, 29%nat)); (214, (11%nat, false, 29%nat));
  (215, (11%nat, false, 29%nat)); (216, (11%nat, false, 29%nat)); (217, (11%nat, false, 29%nat));
  (218, (11%nat, false, 29%nat)); (219, (11%nat, false, 29%nat)); (220, (11%nat, false, 29%nat));
  (221, (11%nat, false, 29%nat)); (222, (11%nat, false, 29%nat)); (223, (11%nat, false, 29%nat));
  (224, (11%nat, false, 29%nat)); (225, (11%nat, false, 29%nat)); (226, (11%nat, false, 29%nat));
  (227, (11%nat, false, 29%nat)); (228, (11%nat, false, 48%nat)); (229, (11%nat, false, 48%nat));
  (232, (11%nat, false, 29%nat))];
  [(144, (0%nat, false, 15%nat)); (176, (11%nat, false, 29%nat)); (182, (0%nat, false, 17%nat));
  (183, (0%nat, false, 18%nat)); (204, (11%nat, false, 29%nat)); (205, (11%nat, false, 29%nat));
  (208, (11%nat, false, 29%nat)); (209, (11%nat, false, 29%nat)); (211, (11%nat, false, 29%nat));
  (212, (11%nat, false, 29%nat)); (213, (11%nat, false, 29%nat)); (214, (11%nat, false, 29%nat));
  (215, (11%nat, false, 29%nat)); (216, (11%nat, false, 29%nat)); (217, (11%nat, false, 29%nat));
  (218, (11%nat, false, 29%nat)); (219, (11%nat, false, 29%nat)); (220, (11%nat, false, 29%nat));
  (221, (11%nat, false, 29%nat)); (222, (11%nat, false, 29%nat)); (223, (11%nat, false, 29%nat));
  (224, (11%nat, false, 29%nat)); (225, (11%nat, false, 29%nat)); (226, (11%nat, false, 29%nat));
  (227, (11%nat, false, 29%nat)); (228, (11%nat, false, 48%nat)); (229, (11%nat, false, 48%nat));
  (232, (11%nat, false, 29%nat))];
  [(144, (0%nat, false, 15%nat)); (176, (11%nat, false, 29%nat)); (182, (0%nat, false, 17%nat));
  (183, (0%nat, false, 18%nat)); (204, (11%nat, false, 29%nat)); (205, (11%nat, false, 29%nat));
  (208, (11%nat, false, 29%nat)); (209, (11%nat, false, 29%nat)); (211, (11%nat, false, 29%nat));
  (212, (11%nat, false, 29%nat)); (213, (11%nat, false, 29%nat)); (214, (11%nat, false, 29%nat));
  (215, (11%nat, false, 29%nat)); (216, (11%nat, false, 29%nat)); (217, (11%nat, false, 29%nat));
  (218, (11%nat, false, 29%nat)); (219, (11%nat, false, 29%nat)); (220, (11%nat, false, 29%nat));
  (221, (11%nat, false, 29%nat)); (222, (11%nat, false, 29%nat)); (223, (11%nat, false, 29%nat));
  (224, (11%nat, false, 29%nat)); (225, (11%nat, false, 29%nat)); (226, (11%nat, false, 29%nat));
  (227, (11%nat, false, 29%nat)); (228, (11%nat, false, 48%nat)); (229, (11%nat, false, 48%nat));
  (232, (11%nat, false, 29%nat))];
  [(144, (0%nat, false, 15%nat)); (176, (11%nat, true, 29%nat)); (182, (0%nat, false, 17%nat));
  (183, (0%nat, false, 18%nat)); (204, (11%nat, true, 29%nat)); (205, (11%nat, true, 29%nat)); (208,
  (11%nat, true, 29%nat)); (209, (11%nat, true, 29%nat)); (211, (11%nat, true, 29%nat)); (212,
  (11%nat, true, 29%nat)); (213, (11%nat, true, 29%nat)); (214, (11%nat, true, 29%nat)); (215,
  (11%nat, true, 29%nat)); (216, (11%nat, true, 29%nat)); (217, (11%nat, true, 29%nat)); (218,
  (11%nat, true, 29%nat)); (219, (11%nat, true, 29%nat)); (220, (11%nat, true, 29%nat)); (221,
  (11%nat, true, 29%nat)); (222, (11%nat, true, 29%nat)); (223, (11%nat, true, 29%nat)); (224,
  (11%nat, true, 29%nat)); (225, (11%nat, true, 29%nat)); (226, (11%nat, true, 29%nat)); (227,
  (11%nat, true, 29%nat)); (228, (11%nat, true, 48%nat)); (229, (11%nat, true, 48%nat)); (232,
  (11%nat, true, 29%nat))];
  [(144, (0%nat, false, 15%nat)); (176, (11%nat, false, 29%nat)); (182, (0%nat, false, 17%nat));
  (183, (0%nat, false, 18%nat)); (204, (11%nat, false, 29%nat)); (205, (11%nat, false, 29%nat));
  (208, (11%nat, false, 29%nat)); (209, (11%nat, false, 29%nat)); (211, (11%nat, false, 29%nat));
  (212, (11%nat, false, 29%nat)); (213, (11%nat, false, 29%nat)); (214, (11%nat, false, 29%nat));
  (215, (11%nat, false, 29%nat)); (216, (11%nat, false, 29%nat)); (217, (11%nat, false, 29%nat));
  (218, (11%nat, false, 29%nat)); (219, (11%nat, false, 29%nat)); (220, (11%nat, false, 29%nat));
  (221, (11%nat, false, 29%nat)); (222, (11%nat, false, 29%nat)); (223, (11%nat, false, 29%nat));
  (224, (11%nat, false, 29%nat)); (225, (11%nat, false, 29%nat)); (226, (11%nat, false, 29%nat));
  (227, (11%nat, false, 29%nat)); (228, (11%nat, false, 48%nat)); (229, (11%nat, false, 48%nat));
  (232, (11%nat, false, 29%nat))];
  [(205, (0%nat, false, 29%nat))];
  [];
  [(144, (0%nat, false, 15%nat)); (176, (11%nat, false, 29%nat)); (182, (0%nat, false, 17%nat));
  (183, (0%nat, false, 18%nat)); (204, (11%nat, false, 29%nat)); (205, (11%nat, false, 29%nat));
  (208, (11%nat, false, 29%nat)); (209, (11%nat, false, 29%nat)); (211, (11%nat, false, 29%nat));
  (212, (11%nat, false, 29%nat)); (213, (11%nat, false, 29%nat)); (214, (11%nat, false, 29%nat));
  (215, (11%nat, false, 29%nat)); (216, (11%nat, false, 29%nat)); (217, (11%nat, false, 29%nat));
  (218, (11%nat, false, 29%nat)); (219, (11%nat, false, 29%nat)); (220, (11%nat, false, 29%nat));
  (221, (11%nat, false, 29%nat)); (222, (11%nat, false, 29%nat)); (223, (11%nat, false, 29%nat));
  (224, (11%nat, false, 29%nat)); (225, (11%nat, false, 29%nat)); (226, (11%nat, false, 29%nat));
  (227, (11%nat, false, 29%nat)); (228, (11%nat, false, 48%nat)); (229, (11%nat, false, 48%nat));
  (232, (11%nat, false, 29%nat))];
  [(205, (0%nat, false, 15%nat))];
  [(144, (0%nat, false, 15%nat)); (176, (11%nat, false, 29%nat)); (182, (0%nat, false, 17%nat));
  (183, (0%nat, false, 18%nat)); (204, (11%nat, false, 29%nat)); (205, (11%nat, false, 29%nat));
  (208, (11%nat, false, 29%nat)); (209, (11%nat, false, 29%nat)); (211, (11%nat, false, 29%nat));
  (212, (11%nat, false, 29%nat)); (213, (11%nat, false, 29%nat)); (214, (11%nat, false, 29%nat));
  (215, (11%nat, false, 29%nat)); (216, (11%nat, false, 29%nat)); (217, (11%nat, false, 29%nat));
  (218, (11%nat, false, 29%nat)); (219, (11%nat, false, 29%nat)); (220, (11%nat, false, 29%nat));
  (221, (11%nat, false, 29%nat)); (222, (11%nat, false, 29%nat)); (223, (11%nat, false, 29%nat));
  (224, (11%nat, false, 29%nat)); (225, (11%nat, false, 29%nat)); (226, (11%nat, false, 29%nat));
  (227, (11%nat, false, 29%nat)); (228, (11%nat, false, 48%nat)); (229, (11%nat, false, 48%nat));
  (232, (11%nat, false, 29%nat))];
  [(144, (0%nat, false, 15%nat)); (176, (11%nat, false, 29%nat)); (182, (0%nat, false, 17%nat));
  (183, (0%nat, false, 18%nat)); (204, (11%nat, false, 29%nat)); (205, (11%nat, false, 29%nat));
  (208, (11%nat, false, 29%nat)); (209, (11%nat, false, 29%nat)); (211, (11%nat, false, 29%nat));
  (212, (11%nat, false, 29%nat)); (213, (11%nat, false, 29%nat)); (214, (11%nat, false, 29%nat));
  (215, (11%nat, false, 29%nat)); (216, (11%nat, false, 29%nat)); (217, (11%nat, false, 29%nat));
  (218, (11%nat, false, 29%nat)); (219, (11%nat, false, 29%nat)); (220, (11%nat, false, 29%nat));
  (221, (11%nat, false, 29%nat)); (222, (11%nat, false, 29%nat)); (223, (11%nat, false, 29%nat));
  (224, (11%nat, false, 29%nat)); (225, (11%nat, false, 29%nat)); (226, (11%nat, false, 29%nat));
  (227, (11%nat, false, 29%nat)); (228, (11%nat, false, 48%nat)); (229, (11%nat, false, 48%nat));
  (232, (11%nat, false, 29%nat))];
  [(144, (0%nat, false, 15%nat)); (176, (11%nat, false, 29%nat)); (182, (0%nat, false, 17%nat));
  (183, (0%nat, false, 18%nat)); (204, (11%nat, false, 29%nat)); (205, (11%nat, false, 29%nat));
  (208, (11%nat, false, 29%nat)); (209, (11%nat, false, 29%nat)); (211, (11%nat, false, 29%nat));
  (212, (11%nat, false, 29%nat)); (213, (11%nat, false, 29%nat)); (214, (11%nat, false, 29%nat));
  (215, (11%nat, false, 29%nat)); (216, (11%nat, false, 29%nat)); (217, (11%nat, false, 29%nat));
  (218, (11%nat, false, 29%nat)); (219, (11%nat, false, 29%nat)); (220, (11%nat, false, 29%nat));
  (221, (11%nat, false, 29%nat)); (222, (11%nat, false, 29%nat)); (223, (11%nat, false, 29%nat));
  (224, (11%nat, false, 29%nat)); (225, (11%nat, false, 29%nat)); (226, (11%nat, false, 29%nat));
  (227, (11%nat, false, 29%nat)); (228, (11%nat, false, 48%nat)); (229, (11%nat, false, 48%nat));
  (232, (11%nat, false, 29%nat))];
  [(144, (0%nat, false, 15%nat)); (176, (11%nat, false, 29%nat)); (182, (0%nat, false, 17%nat));
  (183, (0%nat, false, 18%nat)); (204, (11%nat, false, 29%nat)); (205, (11%nat, false, 29%nat));
  (208, (11%nat, false, 29%nat)); (209, (11%nat, false, 29%nat)); (211, (11%nat, false, 29%nat));
  (212, (11%nat, false, 29%nat)); (213, (11%nat, false, 29%nat)); (214, (11%nat, false, 29%nat));
  (215, (11%nat, false, 29%nat)); (216, (11%nat, false, 29%nat)); (217, (11%nat, false, 29%nat));
  (218, (11%nat, false, 29%nat)); (219, (11%nat, false, 29%nat)); (220, (11%nat, false, 29%nat));
  (221, (11%nat, false, 29%nat)); (222, (11%nat, false, 29%nat)); (223, (11%nat, false, 29%nat));
  (224, (11%nat, false, 29%nat)); (225, (11%nat, false, 29%nat)); (226, (11%nat, false, 29%nat));
  (227, (11%nat, false, 29%nat)); (228, (11%nat, false, 48%nat)); (229, (11%nat, false, 48%nat));
  (232, (11%nat, false, 29%nat))];
  [(144, (0%nat, false, 15%nat)); (176, (11%nat, false, 29%nat)); (182, (0%nat, false, 17%nat));
  (183, (0%nat, false, 18%nat)); (204, (11%nat, false, 29%nat)); (205, (11%nat, false, 29%nat));
  (208, (11%nat, false, 29%nat)); (209, (11%nat, false, 29%nat)); (211, (11%nat, false, 29%nat));
  (212, (11%nat, false, 29%nat)); (213, (11%nat, false, 29%nat)); (214, (11%nat, false, 29%nat));
  (215, (11%nat, false, 29%nat)); (216, (11%nat, false, 29%nat)); (217, (11%nat, false, 29%nat));
  (218, (11%nat, false, 29%nat)); (219, (11%nat, false, 29%nat)); (220, (11%nat, false, 29%nat));
  (221, (11%nat, false, 29%nat)); (222, (11%nat, false, 29%nat)); (223, (11%nat, false, 29%nat));
  (224, (11%nat, false, 29%nat)); (225, (11%nat, false, 29%nat)); (226, (11%nat, false, 29%nat));
  (227, (11%nat, false, 29%nat)); (228, (11%nat, false, 48%nat)); (229, (11%nat, false, 48%nat));
  (232, (11%nat, false, 29%nat))];
  [(144, (0%nat, false, 15%nat)); (176, (11%nat, false, 29%nat)); (182, (0%nat, false, 17%nat));
  (183, (0%nat, false, 18%nat)); (204, (11%nat, false, 29%nat)); (205, (11%nat, false, 29%nat));
  (208, (11%nat, false, 29%nat)); (209, (11%nat, false, 29%nat)); (211, (11%nat, false, 29%nat));
  (212, (11%nat, false, 29%nat)); (213, (11%nat, false, 29%nat)); (214, (11%nat, false, 29%nat));
  (215, (11%nat, false, 29%nat)); (216, (11%nat, false, 29%nat)); (217, (11%nat, false, 29%nat));
  (218, (11%nat, false, 29%nat)); (219, (11%nat, false, 29%nat)); (220, (11%nat, false, 29%nat));
  (221, (11%nat, false, 29%nat)); (222, (11%nat, false, 29%nat)); (223, (11%nat, false, 29%nat));
  (224, (11%nat, false, 29%nat)); (225, (11%nat, false, 29%nat)); (226, (11%nat, false, 29%nat));
  (227, (11%nat, false, 29%nat)); (228, (11%nat, false, 48%nat)); (229, (11%nat, false, 48%nat));
  (232, (11%nat, false, 29%nat))];
  [(144, (0%nat, false, 15%nat)); (176, (13%nat, false, 29%nat)); (182, (0%nat, false, 17%nat));
  (183, (0%nat, false, 18%nat)); (204, (13%nat, false, 29%nat)); (205, (13%nat, false, 29%nat));
  (208, (13%nat, false, 29%nat)); (209, (13%nat, false, 29%nat)); (211, (13%nat, false, 29%nat));
  (212, (13%nat, false, 29%nat)); (213, (13%nat, false, 29%nat)); (214, (13%nat, false, 29%nat));
  (215, (13%nat, false, 29%nat)); (216, (13%nat, false, 29%nat)); (217, (13%nat, false, 29%nat));
  (218, (13%nat, false, 29%nat)); (219, (13%nat, false, 29%nat)); (220, (13%nat, false, 29%nat));
  (221, (13%nat, false, 29%nat)); (222, (13%nat, false, 29%nat)); (223, (13%nat, false, 29%nat));
  (224, (13%nat, false, 29%nat)); (225, (13%nat, false, 29%nat)); (226, (13%nat, false, 29%nat));
  (227, (13%nat, false, 29%nat)); (228, (13%nat, false, 48%nat)); (229, (13%nat, false, 48%nat));
  (232, (13%nat, false, 29%nat))];
  [(144, (0%nat, false, 15%nat)); (176, (13%nat, false, 29%nat)); (182, (0%nat, false, 17%nat));
  (183, (0%nat, false, 18%nat)); (204, (13%nat, false, 29%nat)); (205, (13%nat, false, 29%nat));
  (208, (13%nat, false, 29%nat)); (209, (13%nat, false, 29%nat)); (211, (13%nat, false, 29%nat));
  (212, (13%nat, false, 29%nat)); (213, (13%nat, false, 29%nat)); (214, (13%nat, false, 29%nat));
  (215, (13%nat, false, 29%nat)); (216, (13%nat, false, 29%nat)); (217, (13%nat, false, 29%nat));
  (218, (13%nat, false, 29%nat)); (219, (13%nat, false, 29%nat)); (220, (13%nat, false, 29%nat));
  (221, (13%nat, false, 29%nat)); (222, (13%nat, false, 29%nat)); (223, (13%nat, false, 29%nat));
  (224, (13%nat, false, 29%nat)); (225, (13%nat, false, 29%nat)); (226, (13%nat, false, 29%nat));
  (227, (13%nat, false, 29%nat)); (228, (13%nat, false, 48%nat)); (229, (13%nat, false, 48%nat));
  (232, (13%nat, false, 29%nat))];
  [];
  [];
  [];
  [];
  [];
  [(144, (0%nat, false, 15%nat)); (176, (0%nat, false, 16%nat)); (182, (0%nat, false, 17%nat));
  (183, (0%nat, false, 18%nat)); (186, (0%nat, false, 19%nat)); (187, (0%nat, false, 7%nat)); (188,
  (0%nat, false, 7%nat)); (189, (0%nat, false, 7%nat)); (190, (0%nat, false, 19%nat)); (191, (0%nat,
  false, 19%nat)); (192, (0%nat, false, 19%nat)); (193, (0%nat, false, 19%nat)); (197, (0%nat,
  false, 19%nat)); (198, (0%nat, false, 19%nat)); (199, (0%nat, false, 19%nat)); (200, (0%nat,
  false, 19%nat)); (202, (0%nat, true, 19%nat)); (203, (0%nat, false, 19%nat)); (204, (0%nat, false,
  16%nat)); (205, (0%nat, false, 16%nat)); (208, (0%nat, false, 16%nat)); (209, (0%nat, false,
  16%nat)); (211, (0%nat, false, 16%nat)); (212, (0%nat, false, 16%nat)); (213, (0%nat, false,
  16%nat)); (214, (0%nat, false, 16%nat)); (215, (0%nat, false, 16%nat)); (216, (0%nat, false,
  16%nat)); (217, (0%nat, false, 16%nat)); (218, (0%nat, false, 16%nat)); (219, (0%nat, false,
  16%nat)); (220, (0%nat, false, 16%nat)); (221, (0%nat, false, 16%nat)); (222, (0%nat, false,
  16%nat)); (223, (0%nat, false, 16%nat)); (224, (0%nat, false, 16%nat)); (225, (0%nat, false,
  16%nat)); (226, (0%nat, false, 16%nat)); (227, (0%nat, false, 16%nat)); (228, (0%nat, false,
  20%nat)); (229, (0%nat, false, 20%nat)); (230, (0%nat, false, 7%nat)); (231, (0%nat, false,
  7%nat)); (232, (0%nat, false, 16%nat))];
  [];
  [];
  [];
  [];
  [];
  [];
  [];
  [];
  [];
  [];
  [];
  [];
  [];
  [];
  [];
  [];
  [];
  [];
  [];
  [];
  [];
  [];
  [];
  [];
  [];
  [];
  [];
  [];
  [];
  [];
  [];
  [];
  [];
  [];
  [];
  [];
  [];
  [];
  [];
  [];
  [];
  [(142, (0%nat, false, 49%nat)); (143, (0%nat, false, 49%nat)); (144, (0%nat, false, 50%nat));
  (145, (0%nat, false, 49%nat)); (146, (0%nat, false, 51%nat)); (148, (0%nat, false, 24%nat))];
  [];
  [(140, (0%nat, false, 52%nat)); (170, (0%nat, false, 5%nat)); (171, (0%nat, false, 40%nat)); (172,
  (0%nat, false, 40%nat))];
  [];
  [];
  [];
  [(142, (0%nat, false, 53%nat)); (143, (0%nat, false, 53%nat)); (144, (0%nat, false, 54%nat));
  (145, (0%nat, false, 53%nat)); (146, (0%nat, false, 55%nat))];
  [(142, (0%nat, false, 53%nat)); (143, (0%nat, false, 53%nat)); (144, (0%nat, false, 54%nat));
  (145, (0%nat, false, 53%nat)); (146, (0%nat, false, 55%nat))];
  [];
  [];
  [];
  [];
  [];
  [(144, (0%nat, false, 15%nat)); (176, (0%nat, false, 56%nat)); (182, (0%nat, false, 17%nat));
  (183, (0%nat, false, 18%nat)); (204, (0%nat, false, 56%nat)); (205, (0%nat, false, 56%nat)); (208,
  (0%nat, false, 56%nat)); (209, (0%nat, false, 56%nat)); (210, (0%nat, false, 40%nat)); (211,
  (0%nat, false, 56%nat)); (212, (0%nat, false, 56%nat)); (213, (0%nat, false, 56%nat)); (214,
  (0%nat, false, 56%nat)); (215, (0%nat, false, 56%nat)); (216, (0%nat, false, 56%nat)); (217,
  (0%nat, false, 56%nat)); (218, (0%nat, false, 56%nat)); (219, (0%nat, false, 56%nat)); (220,
  (0%nat, false, 56%nat)); (221, (0%nat, false, 56%nat)); (222, (0%nat, false, 56%nat)); (223,
  (0%nat, false, 56%nat)); (224, (0%nat, false, 56%nat)); (225, (0%nat, false, 56%nat)); (226,
  (0%nat, false, 56%nat)); (227, (0%nat, false, 56%nat)); (228, (0%nat, false, 57%nat)); (229,
  (0%nat, false, 57%nat)); (232, (0%nat, false, 56%nat))];
  [];
  [(144, (0%nat, false, 15%nat)); (164, (0%nat, false, 42%nat)); (176, (0%nat, false, 58%nat));
  (182, (0%nat, false, 17%nat)); (183, (0%nat, false, 18%nat)); (204, (0%nat, false, 58%nat)); (205,
  (0%nat, false, 58%nat)); (208, (0%nat, false, 58%nat)); (209, (0%nat, false, 58%nat)); (211,
  (0%nat, false, 58%nat)); (212, (0%nat, false, 58%nat)); (213, (0%nat, false, 58%nat)); (214,
  (0%nat, false, 58%nat)); (215, (0%nat, false, 58%nat)); (216, (0%nat, false, 58%nat)); (217,
  (0%nat, false, 58%nat)); (218, (0%nat, false, 58%nat)); (219, (0%nat, false, 58%nat)); (220,
  (0%nat, false, 58%nat)); (221, (0%nat, false, 58%nat)); (222, (0%nat, false, 58%nat)); (223,
  (0%nat, false, 58%nat)); (224, (0%nat, false, 58%nat)); (225, (0%nat, false, 58%nat)); (226,
  (0%nat, false, 58%nat)); (227, (0%nat, false, 58%nat)); (228, (0%nat, false, 59%nat)); (229,
  (0%nat, false, 59%nat)); (232, (0%nat, false, 58%nat))];
  [(144, (0%nat, false, 15%nat)); (176, (0%nat, false, 58%nat)); (182, (0%nat, false, 17%nat));
  (183, (0%nat, false, 18%nat)); (204, (0%nat, false, 58%nat)); (205, (0%nat, false, 58%nat)); (208,
  (0%nat, false, 58%nat)); (209, (0%nat, false, 58%nat)); (211, (0%nat, false, 58%nat)); (212,
  (0%nat, false, 58%nat)); (213, (0%nat, false, 58%nat)); (214, (0%nat, false, 58%nat)); (215,
  (0%nat, false, 58%nat)); (216, (0%nat, false, 58%nat)); (217, (0%nat, false, 58%nat)); (218,
  (0%nat, false, 58%nat)); (219, (0%nat, false, 58%nat)); (220, (0%nat, false, 58%nat)); (221,
  (0%nat, false, 58%nat)); (222, (0%nat, false, 58%nat)); (223, (0%nat, false, 58%nat)); (224,
  (0%nat, false, 58%nat)); (225, (0%nat, false, 58%nat)); (226, (0%nat, false, 58%nat)); (227,
  (0%nat, false, 58%nat)); (228, (0%nat, false, 59%nat)); (229, (0%nat, false, 59%nat)); (232,
  (0%nat, false, 58%nat))];
  [(144, (0%nat, false, 15%nat)); (176, (0%nat, false, 16%nat)); (182, (0%nat, false, 17%nat));
  (183, (0%nat, false, 18%nat)); (204, (0%nat, false, 16%nat)); (205, (0%nat, false, 16%nat)); (207,
  (0%nat, false, 7%nat)); (208, (0%nat, false, 16%nat)); (209, (0%nat, false, 16%nat)); (211,
  (0%nat, false, 16%nat)); (212, (0%nat, false, 16%nat)); (213, (0%nat, false, 16%nat)); (214,
  (0%nat, false, 16%nat)); (215, (0%nat, false, 16%nat)); (216, (0%nat, false, 16%nat)); (217,
  (0%nat, false, 16%nat)); (218, (0%nat, false, 16%nat)); (219, (0%nat, false, 16%nat)); (220,
  (0%nat, false, 16%nat)); (221, (0%nat, false, 16%nat)); (222, (0%nat, false, 16%nat)); (223,
  (0%nat, false, 16%nat)); (224, (0%nat, false, 16%nat)); (225, (0%nat, false, 16%nat)); (226,
  (0%nat, false, 16%nat)); (227, (0%nat, false, 16%nat)); (228, (0%nat, false, 20%nat)); (229,
  (0%nat, false, 20%nat)); (232, (0%nat, false, 16%nat))];
  [];
  [(144, (0%nat, false, 15%nat)); (176, (0%nat, false, 58%nat)); (182, (0%nat, false, 17%nat));
  (183, (0%nat, false, 18%nat)); (204, (0%nat, false, 58%nat)); (205, (0%nat, false, 58%nat)); (208,
  (0%nat, false, 58%nat)); (209, (0%nat, false, 58%nat)); (211, (0%nat, false, 58%nat)); (212,
  (0%nat, false, 58%nat)); (213, (0%nat, false, 58%nat)); (214, (0%nat, false, 58%nat)); (215,
  (0%nat, false, 58%nat)); (216, (0%nat, false, 58%nat)); (217, (0%nat, false, 58%nat)); (218,
  (0%nat, false, 58%nat)); (219, (0%nat, false, 58%nat)); (220, (0%nat, false, 58%nat)); (221,
  (0%nat, false, 58%nat)); (222, (0%nat, false, 58%nat)); (223, (0%nat, false, 58%nat)); (224,
  (0%nat, false, 58%nat)); (225, (0%nat, false, 58%nat)); (226, (0%nat, false, 58%nat)); (227,
  (0%nat, false, 58%nat)); (228, (0%nat, false, 59%nat)); (229, (0%nat, false, 59%nat)); (232,
  (0%nat, false, 58%nat))];
  [];
  [];
  [(144, (0%nat, false, 15%nat)); (176, (0%nat, false, 58%nat)); (182, (0%nat, false, 17%nat));
  (183, (0%nat, false, 18%nat)); (204, (0%nat, false, 58%nat)); (205, (0%nat, false, 58%nat)); (208,
  (0%nat, false, 58%nat)); (209, (0%nat, false, 58%nat)); (211, (0%nat, false, 58%nat)); (212,
  (0%nat, false, 58%nat)); (213, (0%nat, false, 58%nat)); (214, (0%nat, false, 58%nat)); (215,
  (0%nat, false, 58%nat)); (216, (0%nat, false, 58%nat)); (217, (0%nat, false, 58%nat)); (218,
  (0%nat, false, 58%nat)); (219, (0%nat, false, 58%nat)); (220, (0%nat, false, 58%nat)); (221,
  (0%nat, false, 58%nat)); (222, (0%nat, false, 58%nat)); (223, (0%nat, false, 58%nat)); (224,
  (0%nat, false, 58%nat)); (225, (0%nat, false, 58%nat)); (226, (0%nat, false, 58%nat)); (227,
  (0%nat, false, 58%nat)); (228, (0%nat, false, 59%nat)); (229, (0%nat, false, 59%nat)); (232,
  (0%nat, false, 58%nat))];
  [];
  [(202, (0%nat, false, 19%nat))];
  [];
  [];
  [];
  [];
  [];
  [];
  [];
  [];
  [];
  [];
  [];
  [];
  [(144, (0%nat, false, 15%nat)); (176, (0%nat, false, 16%nat)); (182, (0%nat, false, 17%nat));
  (183, (0%nat, false, 18%nat)); (204, (0%nat, false, 16%nat)); (205, (0%nat, false, 16%nat)); (208,
  (0%nat, false, 16%nat)); (209, (0%nat, false, 16%nat)); (211, (0%nat, false, 16%nat)); (212,
  (0%nat, false, 16%nat)); (213, (0%nat, false, 16%nat)); (214, (0%nat, false, 16%nat)); (215,
  (0%nat, false, 16%nat)); (216, (0%nat, false, 16%nat)); (217, (0%nat, false, 16%nat)); (218,
  (0%nat, false, 16%nat)); (219, (0%nat, false, 16%nat)); (220, (0%nat, false, 16%nat)); (221,
  (0%nat, false, 16%nat)); (222, (0%nat, false, 16%nat)); (223, (0%nat, false, 16%nat)); (224,
  (0%nat, false, 16%nat)); (225, (0%nat, false, 16%nat)); (226, (0%nat, false, 16%nat)); (227,
  (0%nat, false, 16%nat)); (228, (0%nat, false, 20%nat)); (229, (0%nat, false, 20%nat)); (232,
  (0%nat, false, 16%nat))];
  [];
  [];
  [];
  [];
  [];
  [];
  [(139, (0%nat, false, 12%nat))];
  [];
  [];
  [];
  [];
  [];
  [];
  [];
  [];
  [];
  [(143, (0%nat, false, 60%nat)); (144, (0%nat, false, 61%nat)); (145, (0%nat, false, 60%nat));
  (146, (0%nat, false, 61%nat))];
  [];
  [];
  [];
  [];
  [];
  [];
  [];
  [(144, (0%nat, false, 15%nat)); (176, (0%nat, false, 56%nat)); (182, (0%nat, false, 17%nat));
  (183, (0%nat, false, 18%nat)); (204, (0%nat, false, 56%nat)); (205, (0%nat, false, 56%nat)); (208,
  (0%nat, false, 56%nat)); (209, (0%nat, false, 56%nat)); (210, (0%nat, true, 40%nat)); (211,
  (0%nat, false, 56%nat)); (212, (0%nat, false, 56%nat)); (213, (0%nat, false, 56%nat)); (214,
  (0%nat, false, 56%nat)); (215, (0%nat, false, 56%nat)); (216, (0%nat, false, 56%nat)); (217,
  (0%nat, false, 56%nat)); (218, (0%nat, false, 56%nat)); (219, (0%nat, false, 56%nat)); (220,
  (0%nat, false, 56%nat)); (221, (0%nat, false, 56%nat)); (222, (0%nat, false, 56%nat)); (223,
  (0%nat, false, 56%nat)); (224, (0%nat, false, 56%nat)); (225, (0%nat, false, 56%nat)); (226,
  (0%nat, false, 56%nat)); (227, (0%nat, false, 56%nat)); (228, (0%nat, false, 57%nat)); (229,
  (0%nat, false, 57%nat)); (232, (0%nat, false, 56%nat))];
  [];
  [];
  [];
  [(144, (0%nat, false, 15%nat)); (176, (11%nat, true, 29%nat)); (182, (0%nat, false, 17%nat));
  (183, (0%nat, false, 18%nat)); (204, (11%nat, true, 29%nat)); (205, (11%nat, true, 29%nat)); (208,
  (11%nat, true, 29%nat)); (209, (11%nat, true, 29%nat)); (211, (11%nat, true, 29%nat)); (212,
  (11%nat, true, 29%nat)); (213, (11%nat, true, 29%nat)); (214, (11%nat, true, 29%nat)); (215,
  (11%nat, true, 29%nat)); (216, (11%nat, true, 29%nat)); (217, (11%nat, true, 29%nat)); (218,
  (11%nat, true, 29%nat)); (219, (11%nat, true, 29%nat)); (220, (11%nat, true, 29%nat)); (221,
  (11%nat, true, 29%nat)); (222, (11%nat, true, 29%nat)); (223, (11%nat, true, 29%nat)); (224,
  (11%nat, true, 29%nat)); (225, (11%nat, true, 29%nat)); (226, (11%nat, true, 29%nat)); (227,
  (11%nat, true, 29%nat)); (228, (11%nat, true, 48%nat)); (229, (11%nat, true, 48%nat)); (232,
  (11%nat, true, 29%nat))];
  [];
  [];
  [];
  [];
  [];
  [];
  [];
  [];
  [];
  [];
  [(140, (0%nat, false, 23%nat))];
  [];
  [];
  [];
  [];
  [];
  [(144, (0%nat, false, 15%nat)); (176, (1%nat, false, 29%nat)); (182, (0%nat, false, 17%nat));
  (183, (0%nat, false, 18%nat)); (204, (1%nat, false, 29%nat)); (205, (1%nat, false, 29%nat)); (208,
  (1%nat, false, 29%nat)); (209, (1%nat, false, 29%nat)); (211, (1%nat, false, 29%nat)); (212,
  (1%nat, false, 29%nat)); (213, (1%nat, false, 29%nat)); (214, (1%nat, false, 29%nat)); (215,
  (1%nat, false, 29%nat)); (216, (1%nat, false, 29%nat)); (217, (1%nat, false, 29%nat)); (218,
  (1%nat, false, 29%nat)); (219, (1%nat, false, 29%nat)); (220, (1%nat, false, 29%nat)); (221,
  (1%nat, false, 29%nat)); (222, (1%nat, false, 29%nat)); (223, (1%nat, false, 29%nat)); (224,
  (1%nat, false, 29%nat)); (225, (1%nat, false, 29%nat)); (226, (1%nat, false, 29%nat)); (227,
  (1%nat, false, 29%nat)); (228, (1%nat, false, 48%nat)); (229, (1%nat, false, 48%nat)); (232,
  (1%nat, false, 29%nat))];
  [(144, (0%nat, false, 15%nat)); (176, (1%nat, false, 29%nat)); (182, (0%nat, false, 17%nat));
  (183, (0%nat, false, 18%nat)); (204, (1%nat, false, 29%nat)); (205, (1%nat, false, 29%nat)); (208,
  (1%nat, false, 29%nat)); (209, (1%nat, false, 29%nat)); (211, (1%nat, false, 29%nat)); (212,
  (1%nat, false, 29%nat)); (213, (1%nat, false, 29%nat)); (214, (1%nat, false, 29%nat)); (215,
  (1%nat, false, 29%nat)); (216, (1%nat, false, 29%nat)); (217, (1%nat, false, 29%nat)); (218,
  (1%nat, false, 29%nat)); (219, (1%nat, false, 29%nat)); (220, (1%nat, false, 29%nat)); (221,
  (1%nat, false, 29%nat)); (222, (1%nat, false, 29%nat)); (223, (1%nat, false, 29%nat)); (224,
  (1%nat, false, 29%nat)); (225, (1%nat, false, 29%nat)); (226, (1%nat, false, 29%nat)); (227,
  (1%nat, false, 29%nat)); (228, (1%nat, false, 48%nat)); (229, (1%nat, false, 48%nat)); (232,
  (1%nat, false, 29%nat))];
  [(144, (0%nat, false, 15%nat)); (176, (3%nat, false, 29%nat)); (182, (0%nat, false, 17%nat));
  (183, (0%nat, false, 18%nat)); (204, (3%nat, false, 29%nat)); (205, (3%nat, false, 29%nat)); (208,
  (3%nat, false, 29%nat)); (209, (3%nat, false, 29%nat)); (211, (3%nat, false, 29%nat)); (212,
  (3%nat, false, 29%nat)); (213, (3%nat, false, 29%nat)); (214, (3%nat, false, 29%nat)); (215,
  (3%nat, false, 29%nat)); (216, (3%nat, false, 29%nat)); (217, (3%nat, false, 29%nat)); (218,
  (3%nat, false, 29%nat)); (219, (3%nat, false, 29%nat)); (220, (3%nat, false, 29%nat)); (221,
  (3%nat, false, 29%nat)); (222, (3%nat, false, 29%nat)); (223, (3%nat, false, 29%nat)); (224,
  (3%nat, false, 29%nat)); (225, (3%nat, false, 29%nat)); (226, (3%nat, false, 29%nat)); (227,
  (3%nat, false, 29%nat)); (228, (3%nat, false, 48%nat)); (229, (3%nat, false, 48%nat)); (232,
  (3%nat, false, 29%nat))];
  [(144, (0%nat, false, 15%nat)); (176, (4%nat, false, 29%nat)); (182, (0%nat, false, 17%nat));
  (183, (0%nat, false, 18%nat)); (204, (4%nat, false, 29%nat)); (205, (4%nat, false, 29%nat)); (208,
  (4%nat, false, 29%nat)); (209, (4%nat, false, 29%nat)); (211, (4%nat, false, 29%nat)); (212,
  (4%nat, false, 29%nat)); (213, (4%nat, false, 29%nat)); (214, (4%nat, false, 29%nat)); (215,
  (4%nat, false, 29%nat)); (216, (4%nat, false, 29%nat)); (217, (4%nat, false, 29%nat)); (218,
  (4%nat, false, 29%nat)); (219, (4%nat, false, 29%nat)); (220, (4%nat, false, 29%nat)); (221,
  (4%nat, false, 29%nat)); (222, (4%nat, false, 29%nat)); (223, (4%nat, false, 29%nat)); (224,
  (4%nat, false, 29%nat)); (225, (4%nat, false, 29%nat)); (226, (4%nat, false, 29%nat)); (227,
  (4%nat, false, 29%nat)); (228, (4%nat, false, 48%nat)); (229, (4%nat, false, 48%nat)); (232,
  (4%nat, false, 29%nat))];
  [(144, (0%nat, false, 15%nat)); (176, (5%nat, false, 29%nat)); (182, (0%nat, false, 17%nat));
  (183, (0%nat, false, 18%nat)); (204, (5%nat, false, 29%nat)); (205, (5%nat, false, 29%nat)); (208,
  (5%nat, false, 29%nat)); (209, (5%nat, false, 29%nat)); (211, (5%nat, false, 29%nat)); (212,
  (5%nat, false, 29%nat)); (213, (5%nat, false, 29%nat)); (214, (5%nat, false, 29%nat)); (215,
  (5%nat, false, 29%nat)); (216, (5%nat, false, 29%nat)); (217, (5%nat, false, 29%nat)); (218,
  (5%nat, false, 29%nat)); (219, (5%nat, false, 29%nat)); (220, (5%nat, false, 29%nat)); (221,
  (5%nat, false, 29%nat)); (222, (5%nat, false, 29%nat)); (223, (5%nat, false, 29%nat)); (224,
  (5%nat, false, 29%nat)); (225, (5%nat, false, 29%nat)); (226, (5%nat, false, 29%nat)); (227,
  (5%nat, false, 29%nat)); (228, (5%nat, false, 48%nat)); (229, (5%nat, false, 48%nat)); (232,
  (5%nat, false, 29%nat))];
  [(144, (0%nat, false, 15%nat)); (176, (5%nat, false, 29%nat)); (182, (0%nat, false, 17%nat));
  (183, (0%nat, false, 18%nat)); (204, (5%nat, false, 29%nat)); (205, (5%nat, false, 29%nat)); (208,
  (5%nat, false, 29%nat)); (209, (5%nat, false, 29%nat)); (211, (5%nat, false, 29%nat)); (212,
  (5%nat, false, 29%nat)); (213, (5%nat, false, 29%nat)); (214, (5%nat, false, 29%nat)); (215,
  (5%nat, false, 29%nat)); (216, (5%nat, false, 29%nat)); (217, (5%nat, false, 29%nat)); (218,
  (5%nat, false, 29%nat)); (219, (5%nat, false, 29%nat)); (220, (5%nat, false, 29%nat)); (221,
  (5%nat, false, 29%nat)); (222, (5%nat, false, 29%nat)); (223, (5%nat, false, 29%nat)); (224,
  (5%nat, false, 29%nat)); (225, (5%nat, false, 29%nat)); (226, (5%nat, false, 29%nat)); (227,
  (5%nat, false, 29%nat)); (228, (5%nat, false, 48%nat)); (229, (5%nat, false, 48%nat)); (232,
  (5%nat, false, 29%nat))];
  [(144, (0%nat, false, 15%nat)); (176, (6%nat, false, 29%nat)); (182, (0%nat, false, 17%nat));
  (183, (0%nat, false, 18%nat)); (204, (6%nat, false, 29%nat)); (205, (6%nat, false, 29%nat)); (208,
  (6%nat, false, 29%nat)); (209, (6%nat, false, 29%nat)); (211, (6%nat, false, 29%nat)); (212,
  (6%nat, false, 29%nat)); (213, (6%nat, false, 29%nat)); (214, (6%nat, false, 29%nat)); (215,
  (6%nat, false, 29%nat)); (216, (6%nat, false, 29%nat)); (217, (6%nat, false, 29%nat)); (218,
  (6%nat, false, 29%nat)); (219, (6%nat, false, 29%nat)); (220, (6%nat, false, 29%nat)); (221,
  (6%nat, false, 29%nat)); (222, (6%nat, false, 29%nat)); (223, (6%nat, false, 29%nat)); (224,
  (6%nat, false, 29%nat)); (225, (6%nat, false, 29%nat)); (226, (6%nat, false, 29%nat)); (227,
  (6%nat, false, 29%nat)); (228, (6%nat, false, 48%nat)); (229, (6%nat, false, 48%nat)); (232,
  (6%nat, false, 29%nat))];
  [(144, (0%nat, false, 15%nat)); (176, (7%nat, false, 29%nat)); (182, (0%nat, false, 17%nat));
  (183, (0%nat, false, 18%nat)); (204, (7%nat, false, 29%nat)); (205, (7%nat, false, 29%nat)); (208,
  (7%nat, false, 29%nat)); (209, (7%nat, false, 29%nat)); (211, (7%nat, false, 29%nat)); (212,
  (7%nat, false, 29%nat)); (213, (7%nat, false, 29%nat)); (214, (7%nat, false, 29%nat)); (215,
  (7%nat, false, 29%nat)); (216, (7%nat, false, 29%nat)); (217, (7%nat, false, 29%nat)); (218,
  (7%nat, false, 29%nat)); (219, (7%nat, false, 29%nat)); (220, (7%nat, false, 29%nat)); (221,
  (7%nat, false, 29%nat)); (222, (7%nat, false, 29%nat)); (223, (7%nat, false, 29%nat)); (224,
  (7%nat, false, 29%nat)); (225, (7%nat, false, 29%nat)); (226, (7%nat, false, 29%nat)); (227,
  (7%nat, false, 29%nat)); (228, (7%nat, false, 48%nat)); (229, (7%nat, false, 48%nat)); (232,
  (7%nat, false, 29%nat))];
  [(144, (0%nat, false, 15%nat)); (176, (7%nat, false, 29%nat)); (182, (0%nat, false, 17%nat));
  (183, (0%nat, false, 18%nat)); (204, (7%nat, false, 29%nat)); (205, (7%nat, false, 29%nat)); (208,
  (7%nat, false, 29%nat)); (209, (7%nat, false, 29%nat)); (211, (7%nat, false, 29%nat)); (212,
  (7%nat, false, 29%nat)); (213, (7%nat, false, 29%nat)); (214, (7%nat, false, 29%nat)); (215,
  (7%nat, false, 29%nat)); (216, (7%nat, false, 29%nat)); (217, (7%nat, false, 29%nat)); (218,
  (7%nat, false, 29%nat)); (219, (7%nat, false, 29%nat)); (220, (7%nat, false, 29%nat)); (221,
  (7%nat, false, 29%nat)); (222, (7%nat, false, 29%nat)); (223, (7%nat, false, 29%nat)); (224,
  (7%nat, false, 29%nat)); (225, (7%nat, false, 29%nat)); (226, (7%nat, false, 29%nat)); (227,
  (7%nat, false, 29%nat)); (228, (7%nat, false, 48%nat)); (229, (7%nat, false, 48%nat)); (232,
  (7%nat, false, 29%nat))];
  [(144, (0%nat, false, 15%nat)); (176, (7%nat, false, 29%nat)); (182, (0%nat, false, 17%nat));
  (183, (0%nat, false, 18%nat)); (204, (7%nat, false, 29%nat)); (205, (7%nat, false, 29%nat)); (208,
  (7%nat, false, 29%nat)); (209, (7%nat, false, 29%nat)); (211, (7%nat, false, 29%nat)); (212,
  (7%nat, false, 29%nat)); (213, (7%nat, false, 29%nat)); (214, (7%nat, false, 29%nat)); (215,
  (7%nat, false, 29%nat)); (216, (7%nat, false, 29%nat)); (217, (7%nat, false, 29%nat)); (218,
  (7%nat, false, 29%nat)); (219, (7%nat, false, 29%nat)); (220, (7%nat, false, 29%nat)); (221,
  (7%nat, false, 29%nat)); (222, (7%nat, false, 29%nat)); (223, (7%nat, false, 29%nat)); (224,
  (7%nat, false, 29%nat)); (225, (7%nat, false, 29%nat)); (226, (7%nat, false, 29%nat)); (227,
  (7%nat, false, 29%nat)); (228, (7%nat, false, 48%nat)); (229, (7%nat, false, 48%nat)); (232,
  (7%nat, false, 29%nat))];
  [(144, (0%nat, false, 15%nat)); (176, (7%nat, false, 29%nat)); (182, (0%nat, false, 17%nat));
  (183, (0%nat, false, 18%nat)); (204, (7%nat, false, 29%nat)); (205, (7%nat, false, 29%nat)); (208,
  (7%nat, false, 29%nat)); (209, (7%nat, false, 29%nat)); (211, (7%nat, false, 29%nat)); (212,
  (7%nat, false, 29%nat)); (213, (7%nat, false, 29%nat)); (214, (7%nat, false, 29%nat)); (215,
  (7%nat, false, 29%nat)); (216, (7%nat, false, 29%nat)); (217, (7%nat, false, 29%nat)); (218,
  (7%nat, false, 29%nat)); (219, (7%nat, false, 29%nat)); (220, (7%nat, false, 29%nat)); (221,
  (7%nat, false, 29%nat)); (222, (7%nat, false, 29%nat)); (223, (7%nat, false, 29%nat)); (224,
  (7%nat, false, 29%nat)); (225, (7%nat, false, 29%nat)); (226, (7%nat, false, 29%nat)); (227,
  (7%nat, false, 29%nat)); (228, (7%nat, false, 48%nat)); (229, (7%nat, false, 48%nat)); (232,
  (7%nat, false, 29%nat))];
  [(144, (0%nat, false, 15%nat)); (176, (8%nat, false, 29%nat)); (182, (0%nat, false, 17%nat));
  (183, (0%nat, false, 18%nat)); (204, (8%nat, false, 29%nat)); (205, (8%nat, false, 29%nat)); (208,
  (8%nat, false, 29%nat)); (209, (8%nat, false, 29%nat)); (211, (8%nat, false, 29%nat)); (212,
  (8%nat, false, 29%nat)); (213, (8%nat, false, 29%nat)); (214, (8%nat, false, 29%nat)); (215,
  (8%nat, false, 29%nat)); (216, (8%nat, false, 29%nat)); (217, (8%nat, false, 29%nat)); (218,
  (8%nat, false, 29%nat)); (219, (8%nat, false, 29%nat)); (220, (8%nat, false, 29%nat)); (221,
  (8%nat, false, 29%nat)); (222, (8%nat, false, 29%nat)); (223, (8%nat, false, 29%nat)); (224,
  (8%nat, false, 29%nat)); (225, (8%nat, false, 29%nat)); (226, (8%nat, false, 29%nat)); (227,
  (8%nat, false, 29%nat)); (228, (8%nat, false, 48%nat)); (229, (8%nat, false, 48%nat)); (232,
  (8%nat, false, 29%nat))];
  [(144, (0%nat, false, 15%nat)); (176, (8%nat, false, 29%nat)); (182, (0%nat, false, 17%nat));
  (183, (0%nat, false, 18%nat)); (204, (8%nat, false, 29%nat)); (205, (8%nat, false, 29%nat)); (208,
  (8%nat, false, 29%nat)); (209, (8%nat, false, 29%nat)); (211, (8%nat, false, 29%nat)); (212,
  (8%nat, false, 29%nat)); (213, (8%nat, false, 29%nat)); (214, (8%nat, false, 29%nat)); (215,
  (8%nat, false, 29%nat)); (216, (8%nat, false, 29%nat)); (217, (8%nat, false, 29%nat)); (218,
  (8%nat, false, 29%nat)); (219, (8%nat, false, 29%nat)); (220, (8%nat, false, 29%nat)); (221,
  (8%nat, false, 29%nat)); (222, (8%nat, false, 29%nat)); (223, (8%nat, false, 29%nat)); (224,
  (8%nat, false, 29%nat)); (225, (8%nat, false, 29%nat)); (226, (8%nat, false, 29%nat)); (227,
  (8%nat, false, 29%nat)); (228, (8%nat, false, 48%nat)); (229, (8%nat, false, 48%nat)); (232,
  (8%nat, false, 29%nat))];
  [(144, (0%nat, false, 15%nat)); (176, (8%nat, false, 29%nat)); (182, (0%nat, false, 17%nat));
  (183, (0%nat, false, 18%nat)); (204, (8%nat, false, 29%nat)); (205, (8%nat, false, 29%nat)); (208,
  (8%nat, false, 29%nat)); (209, (8%nat, false, 29%nat)); (211, (8%nat, false, 29%nat)); (212,
  (8%nat, false, 29%nat)); (213, (8%nat, false, 29%nat)); (214, (8%nat, false, 29%nat)); (215,
  (8%nat, false, 29%nat)); (216, (8%nat, false, 29%nat)); (217, (8%nat, false, 29%nat)); (218,
  (8%nat, false, 29%nat)); (219, (8%nat, false, 29%nat)); (220, (8%nat, false, 29%nat)); (221,
  (8%nat, false, 29%nat)); (222, (8%nat, false, 29%nat)); (223, (8%nat, false, 29%nat)); (224,
  (8%nat, false, 29%nat)); (225, (8%nat, false, 29%nat)); (226, (8%nat, false, 29%nat)); (227,
  (8%nat, false, 29%nat)); (228, (8%nat, false, 48%nat)); (229, (8%nat, false, 48%nat)); (232,
  (8%nat, false, 29%nat))];
  [(144, (0%nat, false, 15%nat)); (176, (8%nat, false, 29%nat)); (182, (0%nat, false, 17%nat));
  (183, (0%nat, false, 18%nat)); (204, (8%nat, false, 29%nat)); (205, (8%nat, false, 29%nat)); (208,
  (8%nat, false, 29%nat)); (209, (8%nat, false, 29%nat)); (211, (8%nat, false, 29%nat)); (212,
  (8%nat, false, 29%nat)); (213, (8%nat, false, 29%nat)); (214, (8%nat, false, 29%nat)); (215,
  (8%nat, false, 29%nat)); (216, (8%nat, false, 29%nat)); (217, (8%nat, false, 29%nat)); (218,
  (8%nat, false, 29%nat)); (219, (8%nat, false, 29%nat)); (220, (8%nat, false, 29%nat)); (221,
  (8%nat, false, 29%nat)); (222, (8%nat, false, 29%nat)); (223, (8%nat, false, 29%nat)); (224,
  (8%nat, false, 29%nat)); (225, (8%nat, false, 29%nat)); (226, (8%nat, false, 29%nat)); (227,
  (8%nat, false, 29%nat)); (228, (8%nat, false, 48%nat)); (229, (8%nat, false, 48%nat)); (232,
  (8%nat, false, 29%nat))];
  [(144, (0%nat, false, 15%nat)); (176, (8%nat, false, 29%nat)); (182, (0%nat, false, 17%nat));
  (183, (0%nat, false, 18%nat)); (204, (8%nat, false, 29%nat)); (205, (8%nat, false, 29%nat)); (208,
  (8%nat, false, 29%nat)); (209, (8%nat, false, 29%nat)); (211, (8%nat, false, 29%nat)); (212,
  (8%nat, false, 29%nat)); (213, (8%nat, false, 29%nat)); (214, (8%nat, false, 29%nat)); (215,
  (8%nat, false, 29%nat)); (216, (8%nat, false, 29%nat)); (217, (8%nat, false, 29%nat)); (218,
  (8%nat, false, 29%nat)); (219, (8%nat, false, 29%nat)); (220, (8%nat, false, 29%nat)); (221,
  (8%nat, false, 29%nat)); (222, (8%nat, false, 29%nat)); (223, (8%nat, false, 29%nat)); (224,
  (8%nat, false, 29%nat)); (225, (8%nat, false, 29%nat)); (226, (8%nat, false, 29%nat)); (227,
  (8%nat, false, 29%nat)); (228, (8%nat, false, 48%nat)); (229, (8%nat, false, 48%nat)); (232,
  (8%nat, false, 29%nat))];
  [(144, (0%nat, false, 15%nat)); (176, (8%nat, false, 29%nat)); (182, (0%nat, false, 17%nat));
  (183, (0%nat, false, 18%nat)); (204, (8%nat, false, 29%nat)); (205, (8%nat, false, 29%nat)); (208,
  (8%nat, false, 29%nat)); (209, (8%nat, false, 29%nat)); (211, (8%nat, false, 29%nat)); (212,
  (8%nat, false, 29%nat)); (213, (8%nat, false, 29%nat)); (214, (8%nat, false, 29%nat)); (215,
  (8%nat, false, 29%nat)); (216, (8%nat, false, 29%nat)); (217, (8%nat, false, 29%nat)); (218,
  (8%nat, false, 29%nat)); (219, (8%nat, false, 29%nat)); (220, (8%nat, false, 29%nat)); (221,
  (8%nat, false, 29%nat)); (222, (8%nat, false, 29%nat)); (223, (8%nat, false, 29%nat)); (224,
  (8%nat, false, 29%nat)); (225, (8%nat, false, 29%nat)); (226, (8%nat, false, 29%nat)); (227,
  (8%nat, false, 29%nat)); (228, (8%nat, false, 48%nat)); (229, (8%nat, false, 48%nat)); (232,
  (8%nat, false, 29%nat))];
  [(144, (0%nat, false, 15%nat)); (176, (8%nat, false, 29%nat)); (182, (0%nat, false, 17%nat));
  (183, (0%nat, false, 18%nat)); (204, (8%nat, false, 29%nat)); (205, (8%nat, false, 29%nat)); (208,
  (8%nat, false, 29%nat)); (209, (8%nat, false, 29%nat)); (211, (8%nat, false, 29%nat)); (212,
  (8%nat, false, 29%nat)); (213, (8%nat, false, 29%nat)); (214, (8%nat, false, 29%nat)); (215,
  (8%nat, false, 29%nat)); (216, (8%nat, false, 29%nat)); (217, (8%nat, false, 29%nat)); (218,
  (8%nat, false, 29%nat)); (219, (8%nat, false, 29%nat)); (220, (8%nat, false, 29%nat)); (221,
  (8%nat, false, 29%nat)); (222, (8%nat, false, 29%nat)); (223, (8%nat, false, 29%nat)); (224,
  (8%nat, false, 29%nat)); (225, (8%nat, false, 29%nat)); (226, (8%nat, false, 29%nat)); (227,
  (8%nat, false, 29%nat)); (228, (8%nat, false, 48%nat)); (229, (8%nat, false, 48%nat)); (232,
  (8%nat, false, 29%nat))];
  [(144, (0%nat, false, 15%nat)); (176, (8%nat, false, 29%nat)); (182, (0%nat, false, 17%nat));
  (183, (0%nat, false, 18%nat)); (204, (8%nat, false, 29%nat)); (205, (8%nat, false, 29%nat)); (208,
  (8%nat, false, 29%nat)); (209, (8%nat, false, 29%nat)); (211, (8%nat, false, 29%nat)); (212,
  (8%nat, false, 29%nat)); (213, (8%nat, false, 29%nat)); (214, (8%nat, false, 29%nat)); (215,
  (8%nat, false, 29%nat)); (216, (8%nat, false, 29%nat)); (217, (8%nat, false, 29%nat)); (218,
  (8%nat, false, 29%nat)); (219, (8%nat, false, 29%nat)); (220, (8%nat, false, 29%nat)); (221,
  (8%nat, false, 29%nat)); (222, (8%nat, false, 29%nat)); (223, (8%nat, false, 29%nat)); (224,
  (8%nat, false, 29%nat)); (225, (8%nat, false, 29%nat)); (226, (8%nat, false, 29%nat)); (227,
  (8%nat, false, 29%nat)); (228, (8%nat, false, 48%nat)); (229, (8%nat, false, 48%nat)); (232,
  (8%nat, false, 29%nat))];
  [(143, (0%nat, false, 29%nat)); (144, (0%nat, false, 27%nat)); (145, (0%nat, false, 29%nat));
  (146, (0%nat, false, 27%nat))];
  [(143, (0%nat, false, 29%nat)); (144, (0%nat, false, 27%nat)); (145, (0%nat, false, 29%nat));
  (146, (0%nat, false, 27%nat))];
  [(143, (0%nat, false, 29%nat)); (144, (0%nat, false, 27%nat)); (145, (0%nat, false, 29%nat));
  (146, (0%nat, false, 27%nat))];
  [(143, (0%nat, false, 29%nat)); (144, (0%nat, false, 27%nat)); (145, (0%nat, false, 29%nat));
  (146, (0%nat, false, 27%nat))];
  [(143, (0%nat, false, 29%nat)); (144, (0%nat, false, 27%nat)); (145, (0%nat, false, 29%nat));
  (146, (0%nat, false, 27%nat))];
  [(144, (0%nat, false, 15%nat)); (176, (8%nat, false, 29%nat)); (182, (0%nat, false, 17%nat));
  (183, (0%nat, false, 18%nat)); (204, (8%nat, false, 29%nat)); (205, (8%nat, false, 29%nat)); (208,
  (8%nat, false, 29%nat)); (209, (8%nat, false, 29%nat)); (211, (8%nat, false, 29%nat)); (212,
  (8%nat, false, 29%nat)); (213, (8%nat, false, 29%nat)); (214, (8%nat, false, 29%nat)); (215,
  (8%nat, false, 29%nat)); (216, (8%nat, false, 29%nat)); (217, (8%nat, false, 29%nat)); (218,
  (8%nat, false, 29%nat)); (219, (8%nat, false, 29%nat)); (220, (8%nat, false, 29%nat)); (221,
  (8%nat, false, 29%nat)); (222, (8%nat, false, 29%nat)); (223, (8%nat, false, 29%nat)); (224,
  (8%nat, false, 29%nat)); (225, (8%nat, false, 29%nat)); (226, (8%nat, false, 29%nat)); (227,
  (8%nat, false, 29%nat)); (228, (8%nat, false, 48%nat)); (229, (8%nat, false, 48%nat)); (232,
  (8%nat, false, 29%nat))];
  [(144, (0%nat, false, 15%nat)); (176, (8%nat, false, 29%nat)); (182, (0%nat, false, 17%nat));
  (183, (0%nat, false, 18%nat)); (204, (8%nat, false, 29%nat)); (205, (8%nat, false, 29%nat)); (208,
  (8%nat, false, 29%nat)); (209, (8%nat, false, 29%nat)); (211, (8%nat, false, 29%nat)); (212,
  (8%nat, false, 29%nat)); (213, (8%nat, false, 29%nat)); (214, (8%nat, false, 29%nat)); (215,
  (8%nat, false, 29%nat)); (216, (8%nat, false, 29%nat)); (217, (8%nat, false, 29%nat)); (218,
  (8%nat, false, 29%nat)); (219, (8%nat, false, 29%nat)); (220, (8%nat, false, 29%nat)); (221,
  (8%nat, false, 29%nat)); (222, (8%nat, false, 29%nat)); (223, (8%nat, false, 29%nat)); (224,
  (8%nat, false, 29%nat)); (225, (8%nat, false, 29%nat)); (226, (8%nat, false, 29%nat)); (227,
  (8%nat, false, 29%nat)); (228, (8%nat, false, 48%nat)); (229, (8%nat, false, 48%nat)); (232,
  (8%nat, false, 29%nat))];
  [(140, (0%nat, false, 29%nat))];
  [(144, (0%nat, false, 15%nat)); (176, (9%nat, false, 29%nat)); (182, (0%nat, false, 17%nat));
  (183, (0%nat, false, 18%nat)); (204, (9%nat, false, 29%nat)); (205, (9%nat, false, 29%nat)); (208,
  (9%nat, false, 29%nat)); (209, (9%nat, false, 29%nat)); (211, (9%nat, false, 29%nat)); (212,
  (9%nat, false, 29%nat)); (213, (9%nat, false, 29%nat)); (214, (9%nat, false, 29%nat)); (215,
  (9%nat, false, 29%nat)); (216, (9%nat, false, 29%nat)); (217, (9%nat, false, 29%nat)); (218,
  (9%nat, false, 29%nat)); (219, (9%nat, false, 29%nat)); (220, (9%nat, false, 29%nat)); (221,
  (9%nat, false, 29%nat)); (222, (9%nat, false, 29%nat)); (223, (9%nat, false, 29%nat)); (224,
  (9%nat, false, 29%nat)); (225, (9%nat, false, 29%nat)); (226, (9%nat, false, 29%nat)); (227,
  (9%nat, false, 29%nat)); (228, (9%nat, false, 48%nat)); (229, (9%nat, false, 48%nat)); (232,
  (9%nat, false, 29%nat))];
  [(144, (0%nat, false, 15%nat)); (176, (10%nat, false, 29%nat)); (182, (0%nat, false, 17%nat));
  (183, (0%nat, false, 18%nat)); (204, (10%nat, false, 29%nat)); (205, (10%nat, false, 29%nat));
  (208, (10%nat, false, 29%nat)); (209, (10%nat, false, 29%nat)); (211, (10%nat, false, 29%nat));
  (212, (10%nat, false, 29%nat)); (213, (10%nat, false, 29%nat)); (214, (10%nat, false, 29%nat));
  (215, (10%nat, false, 29%nat)); (216, (10%nat, false, 29%nat)); (217, (10%nat, false, 29%nat));
  (218, (10%nat, false, 29%nat)); (219, (10%nat, false, 29%nat)); (220, (10%nat, false, 29%nat));
  (221, (10%nat, false, 29%nat)); (222, (10%nat, false, 29%nat)); (223, (10%nat, false, 29%nat));
  (224, (10%nat, false, 29%nat)); (225, (10%nat, false, 29%nat)); (226, (10%nat, false, 29%nat));
  (227, (10%nat, false, 29%nat)); (228, (10%nat, false, 48%nat)); (229, (10%nat, false, 48%nat));
  (232, (10%nat, false, 29%nat))];
  [(144, (0%nat, false, 15%nat)); (176, (10%nat, false, 29%nat)); (182, (0%nat, false, 17%nat));
  (183, (0%nat, false, 18%nat)); (204, (10%nat, false, 29%nat)); (205, (10%nat, false, 29%nat));
  (208, (10%nat, false, 29%nat)); (209, (10%nat, false, 29%nat)); (211, (10%nat, false, 29%nat));
  (212, (10%nat, false, 29%nat)); (213, (10%nat, false, 29%nat)); (214, (10%nat, false, 29%nat));
  (215, (10%nat, false, 29%nat)); (216, (10%nat, false, 29%nat)); (217, (10%nat, false, 29%nat));
  (218, (10%nat, false, 29%nat)); (219, (10%nat, false, 29%nat)); (220, (10%nat, false, 29%nat));
  (221, (10%nat, false, 29%nat)); (222, (10%nat, false, 29%nat)); (223, (10%nat, false, 29%nat));
  (224, (10%nat, false, 29%nat)); (225, (10%nat, false, 29%nat)); (226, (10%nat, false, 29%nat));
  (227, (10%nat, false, 29%nat)); (228, (10%nat, false, 48%nat)); (229, (10%nat, false, 48%nat));
  (232, (10%nat, false, 29%nat))];
  [(144, (0%nat, false, 15%nat)); (176, (10%nat, false, 29%nat)); (182, (0%nat, false, 17%nat));
  (183, (0%nat, false, 18%nat)); (204, (10%nat, false, 29%nat)); (205, (10%nat, false, 29%nat));
  (208, (10%nat, false, 29%nat)); (209, (10%nat, false, 29%nat)); (211, (10%nat, false, 29%nat));
  (212, (10%nat, false, 29%nat)); (213, (10%nat, false, 29%nat)); (214, (10%nat, false, 29%nat));
  (215, (10%nat, false, 29%nat)); (216, (10%nat, false, 29%nat)); (217, (10%nat, false, 29%nat));
  (218, (10%nat, false, 29%nat)); (219, (10%nat, false, 29%nat)); (220, (10%nat, false, 29%nat));
  (221, (10%nat, false, 29%nat)); (222, (10%nat, false, 29%nat)); (223, (10%nat, false, 29%nat));
  (224, (10%nat, false, 29%nat)); (225, (10%nat, false, 29%nat)); (226, (10%nat, false, 29%nat));
  (227, (10%nat, false, 29%nat)); (228, (10%nat, false, 48%nat)); (229, (10%nat, false, 48%nat));
  (232, (10%nat, false, 29%nat))];
  [(144, (0%nat, false, 15%nat)); (176, (11%nat, false, 29%nat)); (182, (0%nat, false, 17%nat));
  (183, (0%nat, false, 18%nat)); (204, (11%nat, false, 29%nat)); (205, (11%nat, false, 29%nat));
  (208, (11%nat, false, 29%nat)); (209, (11%nat, false, 29%nat)); (211, (11%nat, false, 29%nat));
  (212, (11%nat, false, 29%nat)); (213, (11%nat, false, 29%nat)); (214, (11%nat, false, 29%nat));
  (215, (11%nat, false, 29%nat)); (216, (11%nat, false, 29%nat)); (217, (11%nat, false, 29%nat));
  (218, (11%nat, false, 29%nat)); (219, (11%nat, false, 29%nat)); (220, (11%nat, false, 29%nat));
  (221, (11%nat, false, 29%nat)); (222, (11%nat, false, 29%nat)); (223, (11%nat, false, 29%nat));
  (224, (11%nat, false, 29%nat)); (225, (11%nat, false, 29%nat)); (226, (11%nat, false, 29%nat));
  (227, (11%nat, false, 29%nat)); (228, (11%nat, false, 48%nat)); (229, (11%nat, false, 48%nat));
  (232, (11%nat, false, 29%nat))];
  [(144, (0%nat, false, 15%nat)); (176, (11%nat, false, 29%nat)); (182, (0%nat, false, 17%nat));
  (183, (0%nat, false, 18%nat)); (204, (11%nat, false, 29%nat)); (205, (11%nat, false, 29%nat));
  (208, (11%nat, false, 29%nat)); (209, (11%nat, false, 29%nat)); (211, (11%nat, false, 29%nat));
  (212, (11%nat, false, 29%nat)); (213, (11%nat, false, 29%nat)); (214, (11%nat, false, 29%nat));
  (215, (11%nat, false, 29%nat)); (216, (11%nat, false, 29%nat)); (217, (11%nat, false, 29%nat));
  (218, (11%nat, false, 29%nat)); (219, (11%nat, false, 29%nat)); (220, (11%nat, false, 29%nat));
  (221, (11%nat, false, 29%nat)); (222, (11%nat, false, 29%nat)); (223, (11%nat, false, 29%nat));
  (224, (11%nat, false, 29%nat)); (225, (11%nat, false, 29%nat)); (226, (11%nat, false, 29%nat));
  (227, (11%nat, false, 29%nat)); (228, (11%nat, false, 48%nat)); (229, (11%nat, false, 48%nat));
  (232, (11%nat, false, 29%nat))];
  [(144, (0%nat, false, 15%nat)); (176, (11%nat, false, 29%nat)); (182, (0%nat, false, 17%nat));
  (183, (0%nat, false, 18%nat)); (204, (11%nat, false, 29%nat)); (205, (11%nat, false, 29%nat));
  (208, (11%nat, false, 29%nat)); (209, (11%nat, false, 29%nat)); (211, (11%nat, false, 29%nat));
  (212, (11%nat, false, 29%nat)); (213, (11%nat, false, 29%nat)); (214, (11%nat, false, 29%nat));
  (215, (11%nat, false, 29%nat)); (216, (11%nat, false, 29%nat)); (217, (11%nat, false, 29%nat));
  (218, (11%nat, false, 29%nat)); (219, (11%nat, false, 29%nat)); (220, (11%nat, false, 29%nat));
  (221, (11%nat, false, 29%nat)); (222, (11%nat, false, 29%nat)); (223, (11%nat, false, 29%nat));
  (224, (11%nat, false, 29%nat)); (225, (11%nat, false, 29%nat)); (226, (11%nat, false, 29%nat));
  (227, (11%nat, false, 29%nat)); (228, (11%nat, false, 48%nat)); (229, (11%nat, false, 48%nat));
  (232, (11%nat, false, 29%nat))];
  [(144, (0%nat, false, 15%nat)); (176, (11%nat, false, 29%nat)); (182, (0%nat, false, 17%nat));
  (183, (0%nat, false, 18%nat)); (204, (11%nat, false, 29%nat)); (205, (11%nat, false, 29%nat));
  (208, (11%nat, false, 29%nat)); (209, (11%nat, false, 29%nat)); (211, (11%nat, false, 29%nat));
  (212, (11%nat, false, 29%nat)); (213, (11%nat, false, 29%nat)); (214, (11%nat, false, 29%nat));
  (215, (11%nat, false, 29%nat)); (216, (11%nat, false, 29%nat)); (217, (11%nat, false, 29%nat));
  (218, (11%nat, false, 29%nat)); (219, (11%nat, false, 29%nat)); (220, (11%nat, false, 29%nat));
  (221, (11%nat, false, 29%nat)); (222, (11%nat, false, 29%nat)); (223, (11%nat, false, 29%nat));
  (224, (11%nat, false, 29%nat)); (225, (11%nat, false, 29%nat)); (226, (11%nat, false, 29%nat));
  (227, (11%nat, false, 29%nat)); (228, (11%nat, false, 48%nat)); (229, (11%nat, false, 48%nat));
  (232, (11%nat, false, 29%nat))];
  [(144, (0%nat, false, 15%nat)); (176, (11%nat, false, 29%nat)); (182, (0%nat, false, 17%nat));
  (183, (0%nat, false, 18%nat)); (204, (11%nat, false, 29%nat)); (205, (11%nat, false, 29%nat));
  (208, (11%nat, false, 29%nat)); (209, (11%nat, false, 29%nat)); (211, (11%nat, false, 29%nat));
  (212, (11%nat, false, 29%nat)); (213, (11%nat, false, 29%nat)); (214, (11%nat, false, 29%nat));
  (215, (11%nat, false, 29%nat)); (216, (11%nat, false, 29%nat)); (217, (11%nat, false, 29%nat));
  (218, (11%nat, false, 29%nat)); (219, (11%nat, false, 29%nat)); (220, (11%nat, false, 29%nat));
  (221, (11%nat, false, 29%nat)); (222, (11%nat, false, 29%nat)); (223, (11%nat, false, 29%nat));
  (224, (11%nat, false, 29%nat)); (225, (11%nat, false, 29%nat)); (226, (11%nat, false, 29%nat));
  (227, (11%nat, false, 29%nat)); (228, (11%nat, false, 48%nat)); (229, (11%nat, false, 48%nat));
  (232, (11%nat, false, 29%nat))];
  [(144, (0%nat, false, 15%nat)); (176, (11%nat, false, 29%nat)); (182, (0%nat, false, 17%nat));
  (183, (0%nat, false, 18%nat)); (204, (11%nat, false, 29%nat)); (205, (11%nat, false, 29%nat));
  (208, (11%nat, false, 29%nat)); (209, (11%nat, false, 29%nat)); (211, (11%nat, false, 29%nat));
  (212, (11%nat, false, 29%nat)); (213, (11%nat, false, 29%nat)); (214, (11%nat, false, 29%nat));
  (215, (11%nat, false, 29%nat)); (216, (11%nat, false, 29%nat)); (217, (11%nat, false, 29%nat));
  (218, (11%nat, false, 29%nat)); (219, (11%nat, false, 29%nat)); (220, (11%nat, false, 29%nat));
  (221, (11%nat, false, 29%nat)); (222, (11%nat, false, 29%nat)); (223, (11%nat, false, 29%nat));
  (224, (11%nat, false, 29%nat)); (225, (11%nat, false, 29%nat)); (226, (11%nat, false, 29%nat));
  (227, (11%nat, false, 29%nat)); (228, (11%nat, false, 48%nat)); (229, (11%nat, false, 48%nat));
  (232, (11%nat, false, 29%nat))];
  [(144, (0%nat, false, 15%nat)); (176, (11%nat, false, 29%nat)); (182, (0%nat, false, 17%nat));
  (183, (0%nat, false, 18%nat)); (204, (11%nat, false, 29%nat)); (205, (11%nat, false, 29%nat));
  (208, (11%nat, false, 29%nat)); (209, (11%nat, false, 29%nat)); (211, (11%nat, false, 29%nat));
  (212, (11%nat, false, 29%nat)); (213, (11%nat, false, 29%nat)); (214, (11%nat, false, 29%nat));
  (215, (11%nat, false, 29%nat)); (216, (11%nat, false, 29%nat)); (217, (11%nat, false, 29%nat));
  (218, (11%nat, false, 29%nat)); (219, (11%nat, false, 29%nat)); (220, (11%nat, false, 29%nat));
  (221, (11%nat, false, 29%nat)); (222, (11%nat, false, 29%nat)); (223, (11%nat, false, 29%nat));
  (224, (11%nat, false, 29%nat)); (225, (11%nat, false, 29%nat)); (226, (11%nat, false, 29%nat));
  (227, (11%nat, false, 29%nat)); (228, (11%nat, false, 48%nat)); (229, (11%nat, false, 48%nat));
  (232, (11%nat, false, 29%nat))];
  [];
  [];
  [(140, (0%nat, false, 23%nat))];
  [];
  [(144, (0%nat, false, 15%nat)); (176, (0%nat, false, 62%nat)); (182, (0%nat, false, 17%nat));
  (183, (0%nat, false, 18%nat)); (204, (0%nat, false, 62%nat)); (205, (0%nat, false, 62%nat)); (208,
  (0%nat, false, 62%nat)); (209, (0%nat, false, 62%nat)); (211, (0%nat, false, 62%nat)); (212,
  (0%nat, false, 62%nat)); (213, (0%nat, false, 62%nat)); (214, (0%nat, false, 62%nat)); (215,
  (0%nat, false, 62%nat)); (216, (0%nat, false, 62%nat)); (217, (0%nat, false, 62%nat)); (218,
  (0%nat, false, 62%nat)); (219, (0%nat, false, 62%nat)); (220, (0%nat, false, 62%nat)); (221,
  (0%nat, false, 62%nat)); (222, (0%nat, false, 62%nat)); (223, (0%nat, false, 62%nat)); (224,
  (0%nat, false, 62%nat)); (225, (0%nat, false, 62%nat)); (226, (0%nat, false, 62%nat)); (227,
  (0%nat, false, 62%nat)); (228, (0%nat, false, 63%nat)); (229, (0%nat, false, 63%nat)); (232,
  (0%nat, false, 62%nat))];
  [(139, (0%nat, false, 5%nat))];
  [(144, (0%nat, false, 15%nat)); (176, (0%nat, false, 62%nat)); (182, (0%nat, false, 17%nat));
  (183, (0%nat, false, 18%nat)); (204, (0%nat, false, 62%nat)); (205, (0%nat, false, 62%nat)); (208,
  (0%nat, false, 62%nat)); (209, (0%nat, false, 62%nat)); (211, (0%nat, false, 62%nat)); (212,
  (0%nat, false, 62%nat)); (213, (0%nat, false, 62%nat)); (214, (0%nat, false, 62%nat)); (215,
  (0%nat, false, 62%nat)); (216, (0%nat, false, 62%nat)); (217, (0%nat, false, 62%nat)); (218,
  (0%nat, false, 62%nat)); (219, (0%nat, false, 62%nat)); (220, (0%nat, false, 62%nat)); (221,
  (0%nat, false, 62%nat)); (222, (0%nat, false, 62%nat)); (223, (0%nat, false, 62%nat)); (224,
  (0%nat, false, 62%nat)); (225, (0%nat, false, 62%nat)); (226, (0%nat, false, 62%nat)); (227,
  (0%nat, false, 62%nat)); (228, (0%nat, false, 63%nat)); (229, (0%nat, false, 63%nat)); (232,
  (0%nat, false, 62%nat))];
  [(139, (0%nat, false, 5%nat))];
  [];
  [(149, (0%nat, false, 24%nat)); (150, (0%nat, false, 24%nat))];
  [];
  [(142, (0%nat, false, 49%nat)); (143, (0%nat, false, 49%nat)); (144, (0%nat, false, 50%nat));
  (145, (0%nat, false, 49%nat)); (146, (0%nat, false, 51%nat)); (148, (0%nat, false, 24%nat))];
  [];
  [];
  [];
  [];
  [(149, (0%nat, false, 7%nat)); (150, (0%nat, false, 7%nat))];
  [(149, (0%nat, false, 7%nat)); (150, (0%nat, false, 7%nat))];
  [];
  [];
  [(142, (0%nat, false, 60%nat)); (143, (0%nat, false, 60%nat)); (144, (0%nat, false, 61%nat));
  (145, (0%nat, false, 60%nat)); (146, (0%nat, false, 61%nat))];
  [(144, (0%nat, false, 15%nat)); (176, (0%nat, false, 45%nat)); (182, (0%nat, false, 17%nat));
  (183, (0%nat, false, 18%nat)); (204, (0%nat, false, 45%nat)); (205, (0%nat, false, 45%nat)); (206,
  (0%nat, false, 42%nat)); (208, (0%nat, false, 45%nat)); (209, (0%nat, false, 45%nat)); (210,
  (0%nat, false, 46%nat)); (211, (0%nat, false, 45%nat)); (212, (0%nat, false, 45%nat)); (213,
  (0%nat, false, 45%nat)); (214, (0%nat, false, 45%nat)); (215, (0%nat, false, 45%nat)); (216,
  (0%nat, false, 45%nat)); (217, (0%nat, false, 45%nat)); (218, (0%nat, false, 45%nat)); (219,
  (0%nat, false, 45%nat)); (220, (0%nat, false, 45%nat)); (221, (0%nat, false, 45%nat)); (222,
  (0%nat, false, 45%nat)); (223, (0%nat, false, 45%nat)); (224, (0%nat, false, 45%nat)); (225,
  (0%nat, false, 45%nat)); (226, (0%nat, false, 45%nat)); (227, (0%nat, false, 45%nat)); (228,
  (0%nat, false, 47%nat)); (229, (0%nat, false, 47%nat)); (232, (0%nat, false, 45%nat))];
  [(144, (0%nat, false, 42%nat))];
  [];
  [];
  [];
  [];
  [];
  [];
  [];
  [];
  [(202, (0%nat, false, 19%nat))];
  [];
  [(144, (0%nat, false, 15%nat)); (176, (0%nat, false, 62%nat)); (182, (0%nat, false, 17%nat));
  (183, (0%nat, false, 18%nat)); (204, (0%nat, false, 62%nat)); (205, (0%nat, false, 62%nat)); (208,
  (0%nat, false, 62%nat)); (209, (0%nat, false, 62%nat)); (211, (0%nat, false, 62%nat)); (212,
  (0%nat, false, 62%nat)); (213, (0%nat, false, 62%nat)); (214, (0%nat, false, 62%nat)); (215,
  (0%nat, false, 62%nat)); (216, (0%nat, false, 62%nat)); (217, (0%nat, false, 62%nat)); (218,
  (0%nat, false, 62%nat)); (219, (0%nat, false, 62%nat)); (220, (0%nat, false, 62%nat)); (221,
  (0%nat, false, 62%nat)); (222, (0%nat, false, 62%nat)); (223, (0%nat, false, 62%nat)); (224,
  (0%nat, false, 62%nat)); (225, (0%nat, false, 62%nat)); (226, (0%nat, false, 62%nat)); (227,
  (0%nat, false, 62%nat)); (228, (0%nat, false, 63%nat)); (229, (0%nat, false, 63%nat)); (232,
  (0%nat, false, 62%nat))];
  [(144, (0%nat, false, 15%nat)); (176, (0%nat, false, 62%nat)); (182, (0%nat, false, 17%nat));
  (183, (0%nat, false, 18%nat)); (204, (0%nat, false, 62%nat)); (205, (0%nat, false, 62%nat)); (208,
  (0%nat, false, 62%nat)); (209, (0%nat, false, 62%nat)); (211, (0%nat, false, 62%nat)); (212,
  (0%nat, false, 62%nat)); (213, (0%nat, false, 62%nat)); (214, (0%nat, false, 62%nat)); (215,
  (0%nat, false, 62%nat)); (216, (0%nat, false, 62%nat)); (217, (0%nat, false, 62%nat)); (218,
  (0%nat, false, 62%nat)); (219, (0%nat, false, 62%nat)); (220, (0%nat, false, 62%nat)); (221,
  (0%nat, false, 62%nat)); (222, (0%nat, false, 62%nat)); (223, (0%nat, false, 62%nat)); (224,
  (0%nat, false, 62%nat)); (225, (0%nat, false, 62%nat)); (226, (0%nat, false, 62%nat)); (227,
  (0%nat, false, 62%nat)); (228, (0%nat, false, 63%nat)); (229, (0%nat, false, 63%nat)); (232,
  (0%nat, false, 62%nat))];
  [];
  [];
  [];
  [];
  [];
  [];
  [(144, (0%nat, false, 15%nat)); (176, (0%nat, false, 16%nat)); (182, (0%nat, false, 17%nat));
  (183, (0%nat, false, 18%nat)); (204, (0%nat, false, 16%nat)); (205, (0%nat, false, 16%nat)); (208,
  (0%nat, false, 16%nat)); (209, (0%nat, false, 16%nat)); (211, (0%nat, false, 16%nat)); (212,
  (0%nat, false, 16%nat)); (213, (0%nat, false, 16%nat)); (214, (0%nat, false, 16%nat)); (215,
  (0%nat, false, 16%nat)); (216, (0%nat, false, 16%nat)); (217, (0%nat, false, 16%nat)); (218,
  (0%nat, false, 16%nat)); (219, (0%nat, false, 16%nat)); (220, (0%nat, false, 16%nat)); (221,
  (0%nat, false, 16%nat)); (222, (0%nat, false, 16%nat)); (223, (0%nat, false, 16%nat)); (224,
  (0%nat, false, 16%nat)); (225, (0%nat, false, 16%nat)); (226, (0%nat, false, 16%nat)); (227,
  (0%nat, false, 16%nat)); (228, (0%nat, false, 20%nat)); (229, (0%nat, false, 20%nat)); (232,
  (0%nat, false, 16%nat))];
  [];
  [];
  [(182, (0%nat, false, 17%nat)); (183, (0%nat, false, 18%nat))];
  [(181, (0%nat, false, 35%nat)); (205, (0%nat, false, 12%nat))];
  [(182, (0%nat, false, 21%nat)); (183, (0%nat, false, 22%nat))];
  [];
  [(144, (0%nat, false, 15%nat)); (176, (0%nat, false, 64%nat)); (182, (0%nat, false, 17%nat));
  (183, (0%nat, false, 18%nat)); (204, (0%nat, false, 64%nat)); (205, (0%nat, false, 64%nat)); (208,
  (0%nat, false, 64%nat)); (209, (0%nat, false, 64%nat)); (211, (0%nat, false, 64%nat)); (212,
  (0%nat, false, 64%nat)); (213, (0%nat, false, 64%nat)); (214, (0%nat, false, 64%nat)); (215,
  (0%nat, false, 64%nat)); (216, (0%nat, false, 64%nat)); (217, (0%nat, false, 64%nat)); (218,
  (0%nat, false, 64%nat)); (219, (0%nat, false, 64%nat)); (220, (0%nat, false, 64%nat)); (221,
  (0%nat, false, 64%nat)); (222, (0%nat, false, 64%nat)); (223, (0%nat, false, 64%nat)); (224,
  (0%nat, false, 64%nat)); (225, (0%nat, false, 64%nat)); (226, (0%nat, false, 64%nat)); (227,
  (0%nat, false, 64%nat)); (228, (0%nat, false, 65%nat)); (229, (0%nat, false, 65%nat)); (232,
  (0%nat, false, 64%nat))];
  [];
  [];
  [(144, (0%nat, false, 15%nat)); (176, (11%nat, false, 29%nat)); (182, (0%nat, false, 17%nat));
  (183, (0%nat, false, 18%nat)); (204, (11%nat, false, 29%nat)); (205, (11%nat, false, 29%nat));
  (208, (11%nat, false, 29%nat)); (209, (11%nat, false, 29%nat)); (211, (11%nat, false, 29%nat));
  (212, (11%nat, false, 29%nat)); (213, (11%nat, false, 29%nat)); (214, (11%nat, false, 29%nat));
  (215, (11%nat, false, 29%nat)); (216, (11%nat, false, 29%nat)); (217, (11%nat, false, 29%nat));
  (218, (11%nat, false, 29%nat)); (219, (11%nat, false, 29%nat)); (220, (11%nat, false, 29%nat));
  (221, (11%nat, false, 29%nat)); (222, (11%nat, false, 29%nat)); (223, (11%nat, false, 29%nat));
  (224, (11%nat, false, 29%nat)); (225, (11%nat, false, 29%nat)); (226, (11%nat, false, 29%nat));
  (227, (11%nat, false, 29%nat)); (228, (11%nat, false, 48%nat)); (229, (11%nat, false, 48%nat));
  (232, (11%nat, false, 29%nat))];
  [];
  [];
  [(144, (0%nat, false, 15%nat)); (176, (0%nat, false, 56%nat)); (182, (0%nat, false, 17%nat));
  (183, (0%nat, false, 18%nat)); (204, (0%nat, false, 56%nat)); (205, (0%nat, false, 56%nat)); (208,
  (0%nat, false, 56%nat)); (209, (0%nat, false, 56%nat)); (210, (0%nat, true, 40%nat)); (211,
  (0%nat, false, 56%nat)); (212, (0%nat, false, 56%nat)); (213, (0%nat, false, 56%nat)); (214,
  (0%nat, false, 56%nat)); (215, (0%nat, false, 56%nat)); (216, (0%nat, false, 56%nat)); (217,
  (0%nat, false, 56%nat)); (218, (0%nat, false, 56%nat)); (219, (0%nat, false, 56%nat)); (220,
  (0%nat, false, 56%nat)); (221, (0%nat, false, 56%nat)); (222, (0%nat, false, 56%nat)); (223,
  (0%nat, false, 56%nat)); (224, (0%nat, false, 56%nat)); (225, (0%nat, false, 56%nat)); (226,
  (0%nat, false, 56%nat)); (227, (0%nat, false, 56%nat)); (228, (0%nat, false, 57%nat)); (229,
  (0%nat, false, 57%nat)); (232, (0%nat, false, 56%nat))];
  [];
  [];
  [];
  [(142, (0%nat, false, 49%nat)); (143, (0%nat, false, 49%nat)); (144, (0%nat, false, 50%nat));
  (145, (0%nat, false, 49%nat)); (146, (0%nat, false, 51%nat)); (148, (0%nat, false, 24%nat))];
  [];
  [];
  [];
  [];
  [];
  [];
  [];
  [];
  [];
  [];
  [];
  [];
  [];
  [];
  [];
  [];
  [];
  [];
  [];
  [];
  [];
  [];
  [];
  [];
  [];
  [];
  [];
  [];
  [];
  [];
  [];
  [];
  [];
  [];
  [];
  [];
  [];
  [];
  [];
  [(144, (0%nat, false, 15%nat)); (176, (0%nat, false, 62%nat)); (182, (0%nat, false, 17%nat));
  (183, (0%nat, false, 18%nat)); (204, (0%nat, false, 62%nat)); (205, (0%nat, false, 62%nat)); (208,
  (0%nat, false, 62%nat)); (209, (0%nat, false, 62%nat)); (211, (0%nat, false, 62%nat)); (212,
  (0%nat, false, 62%nat)); (213, (0%nat, false, 62%nat)); (214, (0%nat, false, 62%nat)); (215,
  (0%nat, false, 62%nat)); (216, (0%nat, false, 62%nat)); (217, (0%nat, false, 62%nat)); (218,
  (0%nat, false, 62%nat)); (219, (0%nat, false, 62%nat)); (220, (0%nat, false, 62%nat)); (221,
  (0%nat, false, 62%nat)); (222, (0%nat, false, 62%nat)); (223, (0%nat, false, 62%nat)); (224,
  (0%nat, false, 62%nat)); (225, (0%nat, false, 62%nat)); (226, (0%nat, false, 62%nat)); (227,
  (0%nat, false, 62%nat)); (228, (0%nat, false, 63%nat)); (229, (0%nat, false, 63%nat)); (232,
  (0%nat, false, 62%nat))];
  [(139, (0%nat, false, 5%nat))];
  [(142, (0%nat, false, 42%nat)); (143, (0%nat, false, 42%nat)); (144, (0%nat, false, 43%nat));
  (145, (0%nat, false, 42%nat)); (146, (0%nat, false, 44%nat)); (176, (0%nat, false, 45%nat)); (182,
  (0%nat, false, 17%nat)); (183, (0%nat, false, 18%nat)); (204, (0%nat, false, 45%nat)); (205,
  (0%nat, false, 45%nat)); (206, (0%nat, false, 42%nat)); (208, (0%nat, false, 45%nat)); (209,
  (0%nat, false, 45%nat)); (210, (0%nat, false, 46%nat)); (211, (0%nat, false, 45%nat)); (212,
  (0%nat, false, 45%nat)); (213, (0%nat, false, 45%nat)); (214, (0%nat, false, 45%nat)); (215,
  (0%nat, false, 45%nat)); (216, (0%nat, false, 45%nat)); (217, (0%nat, false, 45%nat)); (218,
  (0%nat, false, 45%nat)); (219, (0%nat, false, 45%nat)); (220, (0%nat, false, 45%nat)); (221,
  (0%nat, false, 45%nat)); (222, (0%nat, false, 45%nat)); (223, (0%nat, false, 45%nat)); (224,
  (0%nat, false, 45%nat)); (225, (0%nat, false, 45%nat)); (226, (0%nat, false, 45%nat)); (227,
  (0%nat, false, 45%nat)); (228, (0%nat, false, 47%nat)); (229, (0%nat, false, 47%nat)); (232,
  (0%nat, false, 45%nat))];
  [];
  [];
  [];
  [];
  [];
  [(143, (0%nat, false, 23%nat)); (144, (0%nat, false, 66%nat)); (145, (0%nat, false, 23%nat));
  (146, (0%nat, false, 66%nat)); (151, (0%nat, false, 23%nat))];
  [];
  [];
  [(177, (0%nat, false, 42%nat)); (178, (0%nat, false, 46%nat)); (179, (0%nat, false, 46%nat));
  (205, (0%nat, false, 12%nat))];
  [];
  [];
  [];
  [(140, (0%nat, false, 52%nat)); (172, (0%nat, false, 40%nat))];
  [];
  [];
  [(149, (0%nat, false, 23%nat)); (150, (0%nat, false, 23%nat))];
  [];
  [];
  [(202, (0%nat, false, 67%nat))];
  [(202, (0%nat, false, 68%nat))];
  [(202, (0%nat, false, 68%nat))];
  [(144, (0%nat, false, 15%nat)); (176, (0%nat, false, 16%nat)); (182, (0%nat, false, 17%nat));
  (183, (0%nat, false, 18%nat)); (204, (0%nat, false, 16%nat)); (205, (0%nat, false, 16%nat)); (208,
  (0%nat, false, 16%nat)); (209, (0%nat, false, 16%nat)); (211, (0%nat, false, 16%nat)); (212,
  (0%nat, false, 16%nat)); (213, (0%nat, false, 16%nat)); (214, (0%nat, false, 16%nat)); (215,
  (0%nat, false, 16%nat)); (216, (0%nat, false, 16%nat)); (217, (0%nat, false, 16%nat)); (218,
  (0%nat, false, 16%nat)); (219, (0%nat, false, 16%nat)); (220, (0%nat, false, 16%nat)); (221,
  (0%nat, false, 16%nat)); (222, (0%nat, false, 16%nat)); (223, (0%nat, false, 16%nat)); (224,
  (0%nat, false, 16%nat)); (225, (0%nat, false, 16%nat)); (226, (0%nat, false, 16%nat)); (227,
  (0%nat, false, 16%nat)); (228, (0%nat, false, 20%nat)); (229, (0%nat, false, 20%nat)); (232,
  (0%nat, false, 16%nat))];
  [(144, (0%nat, false, 15%nat)); (176, (0%nat, true, 58%nat)); (182, (0%nat, false, 17%nat)); (183,
  (0%nat, false, 18%nat)); (204, (0%nat, true, 58%nat)); (205, (0%nat, true, 58%nat)); (208, (0%nat,
  true, 58%nat)); (209, (0%nat, true, 58%nat)); (211, (0%nat, true, 58%nat)); (212, (0%nat, true,
  58%nat)); (213, (0%nat, true, 58%nat)); (214, (0%nat, true, 58%nat)); (215, (0%nat, true,
  58%nat)); (216, (0%nat, true, 58%nat)); (217, (0%nat, true, 58%nat)); (218, (0%nat, true,
  58%nat)); (219, (0%nat, true, 58%nat)); (220, (0%nat, true, 58%nat)); (221, (0%nat, true,
  58%nat)); (222, (0%nat, true, 58%nat)); (223, (0%nat, true, 58%nat)); (224, (0%nat, true,
  58%nat)); (225, (0%nat, true, 58%nat)); (226, (0%nat, true, 58%nat)); (227, (0%nat, true,
  58%nat)); (228, (0%nat, true, 59%nat)); (229, (0%nat, true, 59%nat)); (232, (0%nat, true,
  58%nat))];
  [(202, (0%nat, false, 19%nat))];
  [(194, (0%nat, false, 19%nat))];
  [];
  [];
  [];
  [];
  [];
  [(139, (0%nat, false, 5%nat))];
  [];
  [(139, (0%nat, false, 5%nat))];
  [(182, (0%nat, false, 21%nat)); (183, (0%nat, false, 22%nat))];
  [];
  [];
  [];
  [(142, (0%nat, false, 69%nat)); (143, (0%nat, false, 69%nat)); (144, (0%nat, false, 70%nat));
  (145, (0%nat, false, 69%nat)); (146, (0%nat, false, 71%nat))];
  [];
  [];
  [];
  [];
  [(139, (0%nat, false, 5%nat))];
  [(144, (0%nat, false, 15%nat)); (176, (0%nat, false, 45%nat)); (182, (0%nat, false, 17%nat));
  (183, (0%nat, false, 18%nat)); (204, (0%nat, false, 45%nat)); (205, (0%nat, false, 45%nat)); (206,
  (0%nat, false, 42%nat)); (208, (0%nat, false, 45%nat)); (209, (0%nat, false, 45%nat)); (210,
  (0%nat, false, 46%nat)); (211, (0%nat, false, 45%nat)); (212, (0%nat, false, 45%nat)); (213,
  (0%nat, false, 45%nat)); (214, (0%nat, false, 45%nat)); (215, (0%nat, false, 45%nat)); (216,
  (0%nat, false, 45%nat)); (217, (0%nat, false, 45%nat)); (218, (0%nat, false, 45%nat)); (219,
  (0%nat, false, 45%nat)); (220, (0%nat, false, 45%nat)); (221, (0%nat, false, 45%nat)); (222,
  (0%nat, false, 45%nat)); (223, (0%nat, false, 45%nat)); (224, (0%nat, false, 45%nat)); (225,
  (0%nat, false, 45%nat)); (226, (0%nat, false, 45%nat)); (227, (0%nat, false, 45%nat)); (228,
  (0%nat, false, 47%nat)); (229, (0%nat, false, 47%nat)); (232, (0%nat, false, 45%nat))];
  [];
  [];
  [];
  [];
  [];
  [(144, (0%nat, false, 15%nat)); (176, (0%nat, false, 45%nat)); (182, (0%nat, false, 17%nat));
  (183, (0%nat, false, 18%nat)); (204, (0%nat, false, 45%nat)); (205, (0%nat, false, 45%nat)); (206,
  (0%nat, false, 42%nat)); (208, (0%nat, false, 45%nat)); (209, (0%nat, false, 45%nat)); (210,
  (0%nat, false, 46%nat)); (211, (0%nat, false, 45%nat)); (212, (0%nat, false, 45%nat)); (213,
  (0%nat, false, 45%nat)); (214, (0%nat, false, 45%nat)); (215, (0%nat, false, 45%nat)); (216,
  (0%nat, false, 45%nat)); (217, (0%nat, false, 45%nat)); (218, (0%nat, false, 45%nat)); (219,
  (0%nat, false, 45%nat)); (220, (0%nat, false, 45%nat)); (221, (0%nat, false, 45%nat)); (222,
  (0%nat, false, 45%nat)); (223, (0%nat, false, 45%nat)); (224, (0%nat, false, 45%nat)); (225,
  (0%nat, false, 45%nat)); (226, (0%nat, false, 45%nat)); (227, (0%nat, false, 45%nat)); (228,
  (0%nat, false, 47%nat)); (229, (0%nat, false, 47%nat)); (232, (0%nat, false, 45%nat))];
  [];
  [];
  [];
  [];
  [];
  [];
  [];
  [];
  [];
  [];
  [(177, (0%nat, false, 42%nat)); (178, (0%nat, false, 46%nat)); (179, (0%nat, false, 46%nat));
  (205, (0%nat, false, 12%nat))];
  [];
  [];
  [];
  [];
  [];
  [];
  [(201, (0%nat, false, 19%nat))];
  [(201, (0%nat, false, 19%nat))];
  [];
  [(144, (0%nat, false, 15%nat)); (176, (0%nat, false, 56%nat)); (182, (0%nat, false, 17%nat));
  (183, (0%nat, false, 18%nat)); (204, (0%nat, false, 56%nat)); (205, (0%nat, false, 56%nat)); (208,
  (0%nat, false, 56%nat)); (209, (0%nat, false, 56%nat)); (210, (0%nat, true, 40%nat)); (211,
  (0%nat, false, 56%nat)); (212, (0%nat, false, 56%nat)); (213, (0%nat, false, 56%nat)); (214,
  (0%nat, false, 56%nat)); (215, (0%nat, false, 56%nat)); (216, (0%nat, false, 56%nat)); (217,
  (0%nat, false, 56%nat)); (218, (0%nat, false, 56%nat)); (219, (0%nat, false, 56%nat)); (220,
  (0%nat, false, 56%nat)); (221, (0%nat, false, 56%nat)); (222, (0%nat, false, 56%nat)); (223,
  (0%nat, false, 56%nat)); (224, (0%nat, false, 56%nat)); (225, (0%nat, false, 56%nat)); (226,
  (0%nat, false, 56%nat)); (227, (0%nat, false, 56%nat)); (228, (0%nat, false, 57%nat)); (229,
  (0%nat, false, 57%nat)); (232, (0%nat, false, 56%nat))];
  [];
  [];
  [(195, (0%nat, false, 72%nat)); (196, (0%nat, false, 73%nat)); (197, (0%nat, false, 73%nat))];
  [];
  [];
  [];
  [];
  [];
  [(142, (0%nat, false, 69%nat)); (143, (0%nat, false, 69%nat)); (144, (0%nat, false, 70%nat));
  (145, (0%nat, false, 69%nat)); (146, (0%nat, false, 71%nat))];
  [];
  [(149, (0%nat, false, 74%nat)); (150, (0%nat, false, 74%nat))];
  [];
  [];
  [];
  [(177, (0%nat, false, 42%nat)); (178, (0%nat, false, 46%nat)); (179, (0%nat, false, 46%nat));
  (205, (0%nat, false, 12%nat))];
  [];
  [];
  [];
  [];
  [];
  [(143, (0%nat, false, 23%nat)); (144, (0%nat, false, 66%nat)); (145, (0%nat, false, 23%nat));
  (146, (0%nat, false, 66%nat))];
  [(202, (0%nat, false, 6%nat))];
  [(179, (0%nat, false, 46%nat)); (205, (0%nat, false, 12%nat))];
  [(142, (0%nat, false, 75%nat)); (143, (0%nat, false, 75%nat)); (144, (0%nat, false, 76%nat));
  (145, (0%nat, false, 75%nat)); (146, (0%nat, false, 77%nat))];
  [];
  [(202, (0%nat, false, 19%nat))];
  [];
  [(202, (0%nat, false, 19%nat))];
  [];
  [];
  [(144, (0%nat, false, 15%nat)); (176, (0%nat, false, 58%nat)); (182, (0%nat, false, 17%nat));
  (183, (0%nat, false, 18%nat)); (204, (0%nat, false, 58%nat)); (205, (0%nat, false, 58%nat)); (207,
  (0%nat, false, 42%nat)); (208, (0%nat, false, 58%nat)); (209, (0%nat, false, 58%nat)); (211,
  (0%nat, false, 58%nat)); (212, (0%nat, false, 58%nat)); (213, (0%nat, false, 58%nat)); (214,
  (0%nat, false, 58%nat)); (215, (0%nat, false, 58%nat)); (216, (0%nat, false, 58%nat)); (217,
  (0%nat, false, 58%nat)); (218, (0%nat, false, 58%nat)); (219, (0%nat, false, 58%nat)); (220,
  (0%nat, false, 58%nat)); (221, (0%nat, false, 58%nat)); (222, (0%nat, false, 58%nat)); (223,
  (0%nat, false, 58%nat)); (224, (0%nat, false, 58%nat)); (225, (0%nat, false, 58%nat)); (226,
  (0%nat, false, 58%nat)); (227, (0%nat, false, 58%nat)); (228, (0%nat, false, 59%nat)); (229,
  (0%nat, false, 59%nat)); (232, (0%nat, false, 58%nat))];
  [];
  [(202, (0%nat, false, 19%nat))];
  [(198, (0%nat, false, 5%nat))];
  [(197, (0%nat, false, 73%nat))];
  [];
  [];
  [];
  [(149, (0%nat, false, 74%nat)); (150, (0%nat, false, 74%nat))];
  [(142, (0%nat, false, 49%nat)); (143, (0%nat, false, 49%nat)); (144, (0%nat, false, 50%nat));
  (145, (0%nat, false, 49%nat)); (146, (0%nat, false, 51%nat)); (148, (0%nat, false, 24%nat))];
  [];
  [];
  [];
  [];
  [];
  [];
  [];
  [];
  [];
  [(149, (0%nat, false, 78%nat)); (150, (0%nat, false, 78%nat))];
  [(202, (0%nat, false, 6%nat))];
  [];
  [(144, (0%nat, false, 15%nat)); (176, (0%nat, false, 58%nat)); (182, (0%nat, false, 17%nat));
  (183, (0%nat, false, 18%nat)); (204, (0%nat, false, 58%nat)); (205, (0%nat, false, 58%nat)); (208,
  (0%nat, false, 58%nat)); (209, (0%nat, false, 58%nat)); (211, (0%nat, false, 58%nat)); (212,
  (0%nat, false, 58%nat)); (213, (0%nat, false, 58%nat)); (214, (0%nat, false, 58%nat)); (215,
  (0%nat, false, 58%nat)); (216, (0%nat, false, 58%nat)); (217, (0%nat, false, 58%nat)); (218,
  (0%nat, false, 58%nat)); (219, (0%nat, false, 58%nat)); (220, (0%nat, false, 58%nat)); (221,
  (0%nat, false, 58%nat)); (222, (0%nat, false, 58%nat)); (223, (0%nat, false, 58%nat)); (224,
  (0%nat, false, 58%nat)); (225, (0%nat, false, 58%nat)); (226, (0%nat, false, 58%nat)); (227,
  (0%nat, false, 58%nat)); (228, (0%nat, false, 59%nat)); (229, (0%nat, false, 59%nat)); (232,
  (0%nat, false, 58%nat))];
  [];
  [];
  [];
  [];
  [];
  [];
  [];
  [];
  [];
  [(144, (0%nat, false, 15%nat)); (176, (0%nat, false, 34%nat)); (182, (0%nat, false, 17%nat));
  (183, (0%nat, false, 18%nat)); (204, (0%nat, false, 34%nat)); (205, (0%nat, false, 34%nat)); (208,
  (0%nat, false, 34%nat)); (209, (0%nat, false, 34%nat)); (211, (0%nat, false, 34%nat)); (212,
  (0%nat, false, 34%nat)); (213, (0%nat, false, 34%nat)); (214, (0%nat, false, 34%nat)); (215,
  (0%nat, false, 34%nat)); (216, (0%nat, false, 34%nat)); (217, (0%nat, false, 34%nat)); (218,
  (0%nat, false, 34%nat)); (219, (0%nat, false, 34%nat)); (220, (0%nat, false, 34%nat)); (221,
  (0%nat, false, 34%nat)); (222, (0%nat, false, 34%nat)); (223, (0%nat, false, 34%nat)); (224,
  (0%nat, false, 34%nat)); (225, (0%nat, false, 34%nat)); (226, (0%nat, false, 34%nat)); (227,
  (0%nat, false, 34%nat)); (228, (0%nat, false, 38%nat)); (229, (0%nat, false, 38%nat)); (232,
  (0%nat, false, 34%nat))];
  [(202, (0%nat, false, 29%nat))];
  [];
  [];
  [];
  [];
  [(202, (0%nat, false, 19%nat))];
  [(202, (0%nat, false, 19%nat))];
  [];
  [(144, (0%nat, false, 15%nat)); (176, (0%nat, false, 34%nat)); (182, (0%nat, false, 17%nat));
  (183, (0%nat, false, 18%nat)); (204, (0%nat, false, 34%nat)); (205, (0%nat, false, 34%nat)); (208,
  (0%nat, false, 34%nat)); (209, (0%nat, false, 34%nat)); (211, (0%nat, false, 34%nat)); (212,
  (0%nat, false, 34%nat)); (213, (0%nat, false, 34%nat)); (214, (0%nat, false, 34%nat)); (215,
  (0%nat, false, 34%nat)); (216, (0%nat, false, 34%nat)); (217, (0%nat, false, 34%nat)); (218,
  (0%nat, false, 34%nat)); (219, (0%nat, false, 34%nat)); (220, (0%nat, false, 34%nat)); (221,
  (0%nat, false, 34%nat)); (222, (0%nat, false, 34%nat)); (223, (0%nat, false, 34%nat)); (224,
  (0%nat, false, 34%nat)); (225, (0%nat, false, 34%nat)); (226, (0%nat, false, 34%nat)); (227,
  (0%nat, false, 34%nat)); (228, (0%nat, false, 38%nat)); (229, (0%nat, false, 38%nat)); (232,
  (0%nat, false, 34%nat))];
  [(177, (0%nat, false, 42%nat)); (178, (0%nat, false, 46%nat)); (179, (0%nat, false, 46%nat));
  (205, (0%nat, false, 12%nat))];
  [];
  [];
  [(144, (0%nat, false, 15%nat)); (176, (0%nat, false, 45%nat)); (182, (0%nat, false, 17%nat));
  (183, (0%nat, false, 18%nat)); (204, (0%nat, false, 45%nat)); (205, (0%nat, false, 45%nat)); (208,
  (0%nat, false, 45%nat)); (209, (0%nat, false, 45%nat)); (211, (0%nat, false, 45%nat)); (212,
  (0%nat, false, 45%nat)); (213, (0%nat, false, 45%nat)); (214, (0%nat, false, 45%nat)); (215,
  (0%nat, false, 45%nat)); (216, (0%nat, false, 45%nat)); (217, (0%nat, false, 45%nat)); (218,
  (0%nat, false, 45%nat)); (219, (0%nat, false, 45%nat)); (220, (0%nat, false, 45%nat)); (221,
  (0%nat, false, 45%nat)); (222, (0%nat, false, 45%nat)); (223, (0%nat, false, 45%nat)); (224,
  (0%nat, false, 45%nat)); (225, (0%nat, false, 45%nat)); (226, (0%nat, false, 45%nat)); (227,
  (0%nat, false, 45%nat)); (228, (0%nat, false, 47%nat)); (229, (0%nat, false, 47%nat)); (232,
  (0%nat, false, 45%nat))];
  [(202, (0%nat, false, 68%nat))];
  [];
  [];
  [];
  [];
  [];
  [(201, (0%nat, false, 19%nat))];
  [(202, (0%nat, false, 29%nat))];
  [];
  []].

Definition items_cert : list (list (Z * nat)) := [
  [];
  [(36, 1%nat); (37, 1%nat); (38, 1%nat); (39, 1%nat)];
  [(1, 1%nat)];
  [(2, 1%nat)];
  [(33, 1%nat); (34, 1%nat)];
  [(35, 1%nat)];
  [(11, 1%nat)];
  [(12, 1%nat)];
  [(13, 1%nat)];
  [(14, 1%nat)];
  [(15, 1%nat)];
  [(16, 1%nat)];
  [(17, 1%nat)];
  [(19, 1%nat)];
  [(18, 1%nat)];
  [(41, 1%nat)];
  [(36, 2%nat); (37, 2%nat); (38, 2%nat); (39, 2%nat)];
  [(1, 2%nat)];
  [(34, 2%nat)];
  [(43, 1%nat)];
  [(36, 3%nat); (37, 3%nat); (38, 3%nat); (39, 3%nat)];
  [(43, 2%nat)];
  [(44, 1%nat)];
  [(37, 4%nat); (39, 4%nat)];
  [(38, 4%nat)];
  [(36, 4%nat)];
  [(77, 1%nat)];
  [(76, 1%nat)];
  [(61, 1%nat); (62, 1%nat)];
  [(64, 1%nat)];
  [(65, 1%nat)];
  [(101, 1%nat)];
  [(66, 1%nat)];
  [(60, 1%nat)];
  [(59, 1%nat)];
  [(44, 2%nat)];
  [(46, 1%nat); (47, 1%nat)];
  [(48, 1%nat)];
  [(54, 1%nat)];
  [(49, 1%nat)];
  [(50, 1%nat)];
  [(51, 1%nat)];
  [(52, 1%nat)];
  [(53, 1%nat)];
  [(55, 1%nat)];
  [(56, 1%nat)];
  [(57, 1%nat)];
  [(58, 1%nat)];
  [(67, 1%nat); (78, 1%nat); (79, 1%nat); (80, 1%nat); (81, 1%nat)];
  [(99, 1%nat); (100, 1%nat)];
  [(37, 5%nat); (39, 5%nat)];
  [(38, 5%nat)];
  [(36, 5%nat)];
  [(3, 1%nat)];
  [(77, 2%nat)];
  [(76, 2%nat)];
  [(61, 2%nat); (62, 2%nat)];
  [(64, 2%nat)];
  [(65, 2%nat)];
  [(66, 2%nat)];
  [(60, 2%nat)];
  [(160, 1%nat)];
  [(59, 2%nat)];
  [(44, 3%nat)];
  [(47, 2%nat)];
  [(57, 2%nat)];
  [(78, 2%nat); (79, 2%nat); (80, 2%nat); (81, 2%nat)];
  [(67, 2%nat)];
  [(100, 2%nat)];
  [(39, 6%nat)];
  [(37, 6%nat)];
  [(77, 3%nat)];
  [(76, 3%nat)];
  [(62, 3%nat)];
  [(61, 3%nat)];
  [(64, 3%nat)];
  [(65, 3%nat)];
  [(66, 3%nat)];
  [(60, 3%nat)];
  [(162, 1%nat); (163, 1%nat)];
  [(273, 1%nat); (274, 1%nat)];
  [(135, 1%nat)];
  [(176, 1%nat)];
  [(177, 1%nat)];
  [(153, 1%nat); (154, 1%nat); (155, 1%nat)];
  [(156, 1%nat)];
  [(138, 1%nat); (139, 1%nat); (140, 1%nat)];
  [(141, 1%nat)];
  [(116, 1%nat)];
  [(117, 1%nat)];
  [(142, 1%nat)];
  [(149, 1%nat); (150, 1%nat)];
  [(151, 1%nat); (152, 1%nat)];
  [(118, 1%nat)];
  [(161, 1%nat)];
  [(164, 1%nat)];
  [(171, 1%nat)];
  [(170, 1%nat)];
  [(172, 1%nat)];
  [(178, 1%nat)];
  [(179, 1%nat)];
  [(267, 1%nat); (268, 1%nat)];
  [(187, 1%nat)];
  [(119, 1%nat); (120, 1%nat)];
  [(286, 1%nat)];
  [(125, 1%nat); (126, 1%nat); (127, 1%nat); (128, 1%nat); (129, 1%nat)];
  [(136, 1%nat); (137, 1%nat)];
  [(131, 1%nat)];
  [(132, 1%nat)];
  [(180, 1%nat)];
  [(287, 1%nat)];
  [(83, 1%nat); (270, 1%nat)];
  [(160, 1%nat); (271, 1%nat); (272, 1%nat)];
  [(195, 1%nat); (261, 1%nat)];
  [(199, 1%nat)];
  [(200, 1%nat)];
  [(255, 1%nat)];
  [(201, 1%nat)];
  [(212, 1%nat); (213, 1%nat)];
  [(207, 1%nat)];
  [(206, 1%nat)];
  [(214, 1%nat); (215, 1%nat)];
  [(204, 1%nat)];
  [(288, 1%nat)];
  [(202, 1%nat)];
  [(203, 1%nat)];
  [(205, 1%nat)];
  [(208, 1%nat)];
  [(210, 1%nat)];
  [(209, 1%nat)];
  [(216, 1%nat)];
  [(218, 1%nat)];
  [(123, 1%nat)];
  [(275, 1%nat); (276, 1%nat)];
  [(269, 1%nat)];
  [(82, 1%nat)];
  [(160, 2%nat)];
  [(103, 1%nat); (104, 1%nat)];
  [(105, 1%nat)];
  [(124, 1%nat)];
  [(122, 1%nat)];
  [(130, 1%nat)];
  [(107, 1%nat)];
  [(108, 1%nat)];
  [(109, 1%nat)];
  [(111, 1%nat)];
  [(112, 1%nat)];
  [(113, 1%nat)];
  [(115, 1%nat)];
  [(106, 1%nat)];
  [(110, 1%nat)];
  [(114, 1%nat)];
  [(175, 1%nat)];
  [(169, 1%nat)];
  [(121, 1%nat); (217, 1%nat); (219, 1%nat); (225, 1%nat); (226, 1%nat); (227, 1%nat); (228, 1%nat);
  (229, 1%nat); (230, 1%nat); (231, 1%nat); (232, 1%nat); (233, 1%nat); (234, 1%nat); (235, 1%nat);
  (236, 1%nat); (237, 1%nat); (238, 1%nat); (239, 1%nat); (240, 1%nat); (241, 1%nat); (242, 1%nat);
  (243, 1%nat); (244, 1%nat); (245, 1%nat); (246, 1%nat); (247, 1%nat); (248, 1%nat); (249, 1%nat);
  (250, 1%nat); (251, 1%nat); (252, 1%nat); (253, 1%nat); (254, 1%nat); (256, 1%nat); (257, 1%nat);
  (258, 1%nat); (259, 1%nat); (260, 1%nat); (262, 1%nat); (263, 1%nat); (264, 1%nat); (265, 1%nat);
  (266, 1%nat); (277, 1%nat); (278, 1%nat); (279, 1%nat); (280, 1%nat); (283, 1%nat)];
  [(194, 1%nat)];
  [(181, 1%nat)];
  [(211, 1%nat)];
  [(184, 1%nat)];
  [(185, 1%nat)];
  [(182, 1%nat)];
  [(220, 1%nat)];
  [(221, 1%nat)];
  [(222, 1%nat)];
  [(223, 1%nat)];
  [(224, 1%nat)];
  [(186, 1%nat)];
  [(173, 1%nat)];
  [(188, 1%nat)];
  [(183, 1%nat)];
  [(174, 1%nat)];
  [(189, 1%nat)];
  [(193, 1%nat)];
  [(190, 1%nat); (281, 1%nat); (285, 1%nat)];
  [(191, 1%nat); (282, 1%nat); (284, 1%nat)];
  [(133, 1%nat)];
  [(134, 1%nat)];
  [(192, 1%nat)];
  [(4, 1%nat)];
  [(80, 3%nat); (81, 3%nat)];
  [(78, 3%nat); (79, 3%nat)];
  [(68, 1%nat)];
  [(67, 3%nat)];
  [(39, 7%nat)];
  [(37, 7%nat)];
  [(77, 4%nat)];
  [(76, 4%nat)];
  [(5, 1%nat)];
  [(62, 4%nat)];
  [(64, 4%nat)];
  [(162, 2%nat); (163, 2%nat)];
  [(273, 2%nat); (274, 2%nat)];
  [(271, 1%nat); (272, 1%nat)];
  [(135, 2%nat); (217, 1%nat); (219, 1%nat); (225, 1%nat); (226, 1%nat); (227, 1%nat); (228, 1%nat);
  (229, 1%nat); (230, 1%nat); (231, 1%nat); (232, 1%nat); (233, 1%nat); (234, 1%nat); (235, 1%nat);
  (236, 1%nat); (237, 1%nat); (238, 1%nat); (239, 1%nat); (240, 1%nat); (241, 1%nat); (242, 1%nat);
  (243, 1%nat); (244, 1%nat); (245, 1%nat); (246, 1%nat); (247, 1%nat); (248, 1%nat); (249, 1%nat);
  (250, 1%nat); (251, 1%nat); (252, 1%nat); (253, 1%nat); (254, 1%nat); (256, 1%nat); (257, 1%nat);
  (258, 1%nat); (259, 1%nat); (260, 1%nat); (262, 1%nat); (263, 1%nat); (264, 1%nat); (265, 1%nat);
  (266, 1%nat); (277, 1%nat); (278, 1%nat); (279, 1%nat); (280, 1%nat); (283, 1%nat)];
  [(153, 2%nat); (154, 2%nat); (155, 2%nat)];
  [(156, 2%nat)];
  [(138, 2%nat)];
  [(139, 2%nat); (140, 2%nat)];
  [(141, 2%nat)];
  [(116, 2%nat)];
  [(117, 2%nat)];
  [(142, 2%nat)];
  [(149, 2%nat); (150, 2%nat); (217, 1%nat); (219, 1%nat); (225, 1%nat); (226, 1%nat); (227, 1%nat);
  (228, 1%nat); (229, 1%nat); (230, 1%nat); (231, 1%nat); (232, 1%nat); (233, 1%nat); (234, 1%nat);
  (235, 1%nat); (236, 1%nat); (237, 1%nat); (238, 1%nat); (239, 1%nat); (240, 1%nat); (241, 1%nat);
  (242, 1%nat); (243, 1%nat); (244, 1%nat); (245, 1%nat); (246, 1%nat); (247, 1%nat); (248, 1%nat);
  (249, 1%nat); (250, 1%nat); (251, 1%nat); (252, 1%nat); (253, 1%nat); (254, 1%nat); (256, 1%nat);
  (257, 1%nat); (258, 1%nat); (259, 1%nat); (260, 1%nat); (262, 1%nat); (263, 1%nat); (264, 1%nat);
  (265, 1%nat); (266, 1%nat); (277, 1%nat); (278, 1%nat); (279, 1%nat); (280, 1%nat); (283, 1%nat)];
  [(151, 2%nat); (152, 2%nat)];
  [(118, 2%nat)];
  [(161, 2%nat)];
  [(21, 1%nat); (23, 1%nat); (267, 2%nat)];
  [(22, 1%nat); (24, 1%nat)];
  [(268, 2%nat)];
  [(187, 2%nat)];
  [(8, 1%nat); (20, 1%nat); (21, 1%nat)];
  [(10, 1%nat)];
  [(9, 1%nat); (22, 1%nat)];
  [(119, 2%nat)];
  [(120, 2%nat); (217, 1%nat); (219, 1%nat); (225, 1%nat); (226, 1%nat); (227, 1%nat); (228, 1%nat);
  (229, 1%nat); (230, 1%nat); (231, 1%nat); (232, 1%nat); (233, 1%nat); (234, 1%nat); (235, 1%nat);
  (236, 1%nat); (237, 1%nat); (238, 1%nat); (239, 1%nat); (240, 1%nat); (241, 1%nat); (242, 1%nat);
  (243, 1%nat); (244, 1%nat); (245, 1%nat); (246, 1%nat); (247, 1%nat); (248, 1%nat); (249, 1%nat);
  (250, 1%nat); (251, 1%nat); (252, 1%nat); (253, 1%nat); (254, 1%nat); (256, 1%nat); (257, 1%nat);
  (258, 1%nat); (259, 1%nat); (260, 1%nat); (262, 1%nat); (263, 1%nat); (264, 1%nat); (265, 1%nat);
  (266, 1%nat); (277, 1%nat); (278, 1%nat); (279, 1%nat); (280, 1%nat); (283, 1%nat)];
  [(286, 2%nat)];
  [(127, 2%nat); (128, 2%nat)];
  [(8, 1%nat); (20, 1%nat); (21, 1%nat); (275, 1%nat); (276, 1%nat)];
  [(125, 2%nat); (129, 2%nat); (217, 1%nat); (219, 1%nat); (225, 1%nat); (226, 1%nat); (227, 1%nat);
  (228, 1%nat); (229, 1%nat); (230, 1%nat); (231, 1%nat); (232, 1%nat); (233, 1%nat); (234, 1%nat);
  (235, 1%nat); (236, 1%nat); (237, 1%nat); (238, 1%nat); (239, 1%nat); (240, 1%nat); (241, 1%nat);
  (242, 1%nat); (243, 1%nat); (244, 1%nat); (245, 1%nat); (246, 1%nat); (247, 1%nat); (248, 1%nat);
  (249, 1%nat); (250, 1%nat); (251, 1%nat); (252, 1%nat); (253, 1%nat); (254, 1%nat); (256, 1%nat);
  (257, 1%nat); (258, 1%nat); (259, 1%nat); (260, 1%nat); (262, 1%nat); (263, 1%nat); (264, 1%nat);
  (265, 1%nat); (266, 1%nat); (277, 1%nat); (278, 1%nat); (279, 1%nat); (280, 1%nat); (283, 1%nat)];
  [(136, 2%nat); (217, 1%nat); (219, 1%nat); (225, 1%nat); (226, 1%nat); (227, 1%nat); (228, 1%nat);
  (229, 1%nat); (230, 1%nat); (231, 1%nat); (232, 1%nat); (233, 1%nat); (234, 1%nat); (235, 1%nat);
  (236, 1%nat); (237, 1%nat); (238, 1%nat); (239, 1%nat); (240, 1%nat); (241, 1%nat); (242, 1%nat);
  (243, 1%nat); (244, 1%nat); (245, 1%nat); (246, 1%nat); (247, 1%nat); (248, 1%nat); (249, 1%nat);
  (250, 1%nat); (251, 1%nat); (252, 1%nat); (253, 1%nat); (254, 1%nat); (256, 1%nat); (257, 1%nat);
  (258, 1%nat); (259, 1%nat); (260, 1%nat); (262, 1%nat); (263, 1%nat); (264, 1%nat); (265, 1%nat);
  (266, 1%nat); (277, 1%nat); (278, 1%nat); (279, 1%nat); (280, 1%nat); (283, 1%nat)];
  [(131, 2%nat); (217, 1%nat); (219, 1%nat); (225, 1%nat); (226, 1%nat); (227, 1%nat); (228, 1%nat);
  (229, 1%nat); (230, 1%nat); (231, 1%nat); (232, 1%nat); (233, 1%nat); (234, 1%nat); (235, 1%nat);
  (236, 1%nat); (237, 1%nat); (238, 1%nat); (239, 1%nat); (240, 1%nat); (241, 1%nat); (242, 1%nat);
  (243, 1%nat); (244, 1%nat); (245, 1%nat); (246, 1%nat); (247, 1%nat); (248, 1%nat); (249, 1%nat);
  (250, 1%nat); (251, 1%nat); (252, 1%nat); (253, 1%nat); (254, 1%nat); (256, 1%nat); (257, 1%nat);
  (258, 1%nat); (259, 1%nat); (260, 1%nat); (262, 1%nat); (263, 1%nat); (264, 1%nat); (265, 1%nat);
  (266, 1%nat); (277, 1%nat); (278, 1%nat); (279, 1%nat); (280, 1%nat); (283, 1%nat)];
  [(132, 2%nat); (217, 1%nat); (219, 1%nat); (225, 1%nat); (226, 1%nat); (227, 1%nat); (228, 1%nat);
  (229, 1%nat); (230, 1%nat); (231, 1%nat); (232, 1%nat); (233, 1%nat); (234, 1%nat); (235, 1%nat);
  (236, 1%nat); (237, 1%nat); (238, 1%nat); (239, 1%nat); (240, 1%nat); (241, 1%nat); (242, 1%nat);
  (243, 1%nat); (244, 1%nat); (245, 1%nat); (246, 1%nat); (247, 1%nat); (248, 1%nat); (249, 1%nat);
  (250, 1%nat); (251, 1%nat); (252, 1%nat); (253, 1%nat); (254, 1%nat); (256, 1%nat); (257, 1%nat);
  (258, 1%nat); (259, 1%nat); (260, 1%nat); (262, 1%nat); (263, 1%nat); (264, 1%nat); (265, 1%nat);
  (266, 1%nat); (277, 1%nat); (278, 1%nat); (279, 1%nat); (280, 1%nat); (283, 1%nat)];
  [(287, 2%nat)];
  [(94, 1%nat); (95, 1%nat)];
  [(83, 2%nat); (91, 1%nat); (92, 1%nat)];
  [(93, 1%nat)];
  [(96, 1%nat); (97, 1%nat); (169, 1%nat)];
  [(270, 2%nat)];
  [(198, 1%nat); (217, 1%nat); (219, 1%nat); (225, 1%nat); (226, 1%nat); (227, 1%nat); (228, 1%nat);
  (229, 1%nat); (230, 1%nat); (231, 1%nat); (232, 1%nat); (233, 1%nat); (234, 1%nat); (235, 1%nat);
  (236, 1%nat); (237, 1%nat); (238, 1%nat); (239, 1%nat); (240, 1%nat); (241, 1%nat); (242, 1%nat);
  (243, 1%nat); (244, 1%nat); (245, 1%nat); (246, 1%nat); (247, 1%nat); (248, 1%nat); (249, 1%nat);
  (250, 1%nat); (251, 1%nat); (252, 1%nat); (253, 1%nat); (254, 1%nat); (256, 1%nat); (257, 1%nat);
  (258, 1%nat); (259, 1%nat); (260, 1%nat); (262, 1%nat); (263, 1%nat); (264, 1%nat); (265, 1%nat);
  (266, 1%nat); (277, 1%nat); (278, 1%nat); (279, 1%nat); (280, 1%nat); (283, 1%nat)];
  [(166, 1%nat); (196, 1%nat); (197, 1%nat)];
  [(272, 2%nat)];
  [(121, 1%nat); (198, 1%nat); (217, 1%nat); (219, 1%nat); (225, 1%nat); (226, 1%nat); (227, 1%nat);
  (228, 1%nat); (229, 1%nat); (230, 1%nat); (231, 1%nat); (232, 1%nat); (233, 1%nat); (234, 1%nat);
  (235, 1%nat); (236, 1%nat); (237, 1%nat); (238, 1%nat); (239, 1%nat); (240, 1%nat); (241, 1%nat);
  (242, 1%nat); (243, 1%nat); (244, 1%nat); (245, 1%nat); (246, 1%nat); (247, 1%nat); (248, 1%nat);
  (249, 1%nat); (250, 1%nat); (251, 1%nat); (252, 1%nat); (253, 1%nat); (254, 1%nat); (256, 1%nat);
  (257, 1%nat); (258, 1%nat); (259, 1%nat); (260, 1%nat); (262, 1%nat); (263, 1%nat); (264, 1%nat);
  (265, 1%nat); (266, 1%nat); (277, 1%nat); (278, 1%nat); (279, 1%nat); (280, 1%nat); (283, 1%nat)];
  [(196, 1%nat); (197, 1%nat); (271, 2%nat)];
  [(7, 1%nat)];
  [(261, 2%nat)];
  [(6, 1%nat)];
  [(195, 2%nat); (196, 1%nat); (197, 1%nat)];
  [(199, 2%nat); (217, 1%nat); (219, 1%nat); (262, 1%nat); (277, 1%nat); (278, 1%nat); (279, 1%nat);
  (280, 1%nat); (283, 1%nat)];
  [(200, 2%nat); (217, 1%nat); (219, 1%nat); (262, 1%nat); (277, 1%nat); (278, 1%nat); (279, 1%nat);
  (280, 1%nat); (283, 1%nat)];
  [(217, 1%nat); (219, 1%nat); (255, 2%nat); (262, 1%nat); (277, 1%nat); (278, 1%nat); (279, 1%nat);
  (280, 1%nat); (283, 1%nat)];
  [(201, 2%nat); (217, 1%nat); (219, 1%nat); (262, 1%nat); (277, 1%nat); (278, 1%nat); (279, 1%nat);
  (280, 1%nat); (283, 1%nat)];
  [(213, 2%nat); (271, 1%nat); (272, 1%nat)];
  [(212, 2%nat); (217, 1%nat); (219, 1%nat); (262, 1%nat); (277, 1%nat); (278, 1%nat); (279, 1%nat);
  (280, 1%nat); (283, 1%nat)];
  [(207, 2%nat); (217, 1%nat); (219, 1%nat); (262, 1%nat); (277, 1%nat); (278, 1%nat); (279, 1%nat);
  (280, 1%nat); (283, 1%nat)];
  [(206, 2%nat)];
  [(214, 2%nat); (215, 2%nat)];
  [(204, 2%nat); (217, 1%nat); (219, 1%nat); (262, 1%nat); (277, 1%nat); (278, 1%nat); (279, 1%nat);
  (280, 1%nat); (283, 1%nat)];
  [(288, 2%nat)];
  [(202, 2%nat); (217, 1%nat); (219, 1%nat); (262, 1%nat); (277, 1%nat); (278, 1%nat); (279, 1%nat);
  (280, 1%nat); (283, 1%nat)];
  [(203, 2%nat); (217, 1%nat); (219, 1%nat); (262, 1%nat); (277, 1%nat); (278, 1%nat); (279, 1%nat);
  (280, 1%nat); (283, 1%nat)];
  [(205, 2%nat); (217, 1%nat); (219, 1%nat); (262, 1%nat); (277, 1%nat); (278, 1%nat); (279, 1%nat);
  (280, 1%nat); (283, 1%nat)];
  [(208, 2%nat); (217, 1%nat); (219, 1%nat); (262, 1%nat); (277, 1%nat); (278, 1%nat); (279, 1%nat);
  (280, 1%nat); (283, 1%nat)];
  [(210, 2%nat); (217, 1%nat); (219, 1%nat); (262, 1%nat); (277, 1%nat); (278, 1%nat); (279, 1%nat);
  (280, 1%nat); (283, 1%nat)];
  [(209, 2%nat); (217, 1%nat); (219, 1%nat); (262, 1%nat); (277, 1%nat); (278, 1%nat); (279, 1%nat);
  (280, 1%nat); (283, 1%nat)];
  [(216, 2%nat); (262, 1%nat); (277, 1%nat); (278, 1%nat); (279, 1%nat); (280, 1%nat); (283, 1%nat)];
  [(218, 2%nat); (262, 1%nat); (277, 1%nat); (278, 1%nat); (279, 1%nat); (280, 1%nat); (283, 1%nat)];
  [(275, 2%nat); (276, 2%nat)];
  [(82, 2%nat)];
  [(160, 3%nat)];
  [(104, 2%nat)];
  [(124, 2%nat)];
  [(122, 2%nat)];
  [(265, 2%nat)];
  [(266, 2%nat)];
  [(253, 2%nat)];
  [(254, 2%nat)];
  [(236, 2%nat)];
  [(234, 2%nat)];
  [(235, 2%nat)];
  [(238, 2%nat)];
  [(239, 2%nat)];
  [(245, 2%nat)];
  [(246, 2%nat)];
  [(240, 2%nat)];
  [(241, 2%nat)];
  [(242, 2%nat)];
  [(243, 2%nat)];
  [(247, 2%nat)];
  [(248, 2%nat)];
  [(249, 2%nat)];
  [(250, 2%nat)];
  [(256, 2%nat)];
  [(257, 2%nat)];
  [(258, 2%nat)];
  [(259, 2%nat)];
  [(260, 2%nat)];
  [(244, 2%nat)];
  [(251, 2%nat)];
  [(263, 2%nat); (264, 2%nat)];
  [(237, 2%nat)];
  [(225, 2%nat)];
  [(226, 2%nat)];
  [(252, 2%nat)];
  [(227, 2%nat)];
  [(228, 2%nat)];
  [(229, 2%nat)];
  [(230, 2%nat)];
  [(231, 2%nat)];
  [(232, 2%nat)];
  [(233, 2%nat)];
  [(217, 2%nat)];
  [(219, 2%nat)];
  [(262, 2%nat); (277, 2%nat); (278, 2%nat); (279, 2%nat); (280, 2%nat); (283, 2%nat)];
  [(121, 2%nat)];
  [(281, 2%nat)];
  [(285, 2%nat)];
  [(282, 2%nat)];
  [(284, 2%nat)];
  [(26, 1%nat)];
  [(25, 1%nat)];
  [(80, 4%nat); (81, 4%nat)];
  [(78, 4%nat); (79, 4%nat)];
  [(74, 1%nat); (75, 1%nat)];
  [(68, 2%nat)];
  [(70, 1%nat); (71, 1%nat); (72, 1%nat)];
  [(73, 1%nat)];
  [(77, 5%nat)];
  [(76, 5%nat)];
  [(62, 5%nat)];
  [(64, 5%nat)];
  [(162, 3%nat)];
  [(273, 3%nat)];
  [(63, 1%nat)];
  [(153, 3%nat); (154, 3%nat)];
  [(155, 3%nat); (217, 1%nat); (219, 1%nat); (225, 1%nat); (226, 1%nat); (227, 1%nat); (228, 1%nat);
  (229, 1%nat); (230, 1%nat); (231, 1%nat); (232, 1%nat); (233, 1%nat); (234, 1%nat); (235, 1%nat);
  (236, 1%nat); (237, 1%nat); (238, 1%nat); (239, 1%nat); (240, 1%nat); (241, 1%nat); (242, 1%nat);
  (243, 1%nat); (244, 1%nat); (245, 1%nat); (246, 1%nat); (247, 1%nat); (248, 1%nat); (249, 1%nat);
  (250, 1%nat); (251, 1%nat); (252, 1%nat); (253, 1%nat); (254, 1%nat); (256, 1%nat); (257, 1%nat);
  (258, 1%nat); (259, 1%nat); (260, 1%nat); (262, 1%nat); (263, 1%nat); (264, 1%nat); (265, 1%nat);
  (266, 1%nat); (277, 1%nat); (278, 1%nat); (279, 1%nat); (280, 1%nat); (283, 1%nat)];
  [(156, 3%nat); (217, 1%nat); (219, 1%nat); (225, 1%nat); (226, 1%nat); (227, 1%nat); (228, 1%nat);
  (229, 1%nat); (230, 1%nat); (231, 1%nat); (232, 1%nat); (233, 1%nat); (234, 1%nat); (235, 1%nat);
  (236, 1%nat); (237, 1%nat); (238, 1%nat); (239, 1%nat); (240, 1%nat); (241, 1%nat); (242, 1%nat);
  (243, 1%nat); (244, 1%nat); (245, 1%nat); (246, 1%nat); (247, 1%nat); (248, 1%nat); (249, 1%nat);
  (250, 1%nat); (251, 1%nat); (252, 1%nat); (253, 1%nat); (254, 1%nat); (256, 1%nat); (257, 1%nat);
  (258, 1%nat); (259, 1%nat); (260, 1%nat); (262, 1%nat); (263, 1%nat); (264, 1%nat); (265, 1%nat);
  (266, 1%nat); (277, 1%nat); (278, 1%nat); (279, 1%nat); (280, 1%nat); (283, 1%nat)];
  [(138, 3%nat)];
  [(168, 1%nat); (217, 1%nat); (219, 1%nat); (225, 1%nat); (226, 1%nat); (227, 1%nat); (228, 1%nat);
  (229, 1%nat); (230, 1%nat); (231, 1%nat); (232, 1%nat); (233, 1%nat); (234, 1%nat); (235, 1%nat);
  (236, 1%nat); (237, 1%nat); (238, 1%nat); (239, 1%nat); (240, 1%nat); (241, 1%nat); (242, 1%nat);
  (243, 1%nat); (244, 1%nat); (245, 1%nat); (246, 1%nat); (247, 1%nat); (248, 1%nat); (249, 1%nat);
  (250, 1%nat); (251, 1%nat); (252, 1%nat); (253, 1%nat); (254, 1%nat); (256, 1%nat); (257, 1%nat);
  (258, 1%nat); (259, 1%nat); (260, 1%nat); (262, 1%nat); (263, 1%nat); (264, 1%nat); (265, 1%nat);
  (266, 1%nat); (277, 1%nat); (278, 1%nat); (279, 1%nat); (280, 1%nat); (283, 1%nat)];
  [(139, 3%nat); (140, 3%nat)];
  [(141, 3%nat); (217, 1%nat); (219, 1%nat); (225, 1%nat); (226, 1%nat); (227, 1%nat); (228, 1%nat);
  (229, 1%nat); (230, 1%nat); (231, 1%nat); (232, 1%nat); (233, 1%nat); (234, 1%nat); (235, 1%nat);
  (236, 1%nat); (237, 1%nat); (238, 1%nat); (239, 1%nat); (240, 1%nat); (241, 1%nat); (242, 1%nat);
  (243, 1%nat); (244, 1%nat); (245, 1%nat); (246, 1%nat); (247, 1%nat); (248, 1%nat); (249, 1%nat);
  (250, 1%nat); (251, 1%nat); (252, 1%nat); (253, 1%nat); (254, 1%nat); (256, 1%nat); (257, 1%nat);
  (258, 1%nat); (259, 1%nat); (260, 1%nat); (262, 1%nat); (263, 1%nat); (264, 1%nat); (265, 1%nat);
  (266, 1%nat); (277, 1%nat); (278, 1%nat); (279, 1%nat); (280, 1%nat); (283, 1%nat)];
  [(142, 3%nat); (217, 1%nat); (219, 1%nat); (225, 1%nat); (226, 1%nat); (227, 1%nat); (228, 1%nat);
  (229, 1%nat); (230, 1%nat); (231, 1%nat); (232, 1%nat); (233, 1%nat); (234, 1%nat); (235, 1%nat);
  (236, 1%nat); (237, 1%nat); (238, 1%nat); (239, 1%nat); (240, 1%nat); (241, 1%nat); (242, 1%nat);
  (243, 1%nat); (244, 1%nat); (245, 1%nat); (246, 1%nat); (247, 1%nat); (248, 1%nat); (249, 1%nat);
  (250, 1%nat); (251, 1%nat); (252, 1%nat); (253, 1%nat); (254, 1%nat); (256, 1%nat); (257, 1%nat);
  (258, 1%nat); (259, 1%nat); (260, 1%nat); (262, 1%nat); (263, 1%nat); (264, 1%nat); (265, 1%nat);
  (266, 1%nat); (277, 1%nat); (278, 1%nat); (279, 1%nat); (280, 1%nat); (283, 1%nat)];
  [(149, 3%nat); (150, 3%nat)];
  [(151, 3%nat)];
  [(21, 2%nat); (23, 2%nat)];
  [(22, 2%nat); (24, 2%nat)];
  [(21, 2%nat)];
  [(20, 2%nat)];
  [(22, 2%nat)];
  [(120, 3%nat)];
  [(286, 3%nat)];
  [(127, 3%nat); (217, 1%nat); (219, 1%nat); (225, 1%nat); (226, 1%nat); (227, 1%nat); (228, 1%nat);
  (229, 1%nat); (230, 1%nat); (231, 1%nat); (232, 1%nat); (233, 1%nat); (234, 1%nat); (235, 1%nat);
  (236, 1%nat); (237, 1%nat); (238, 1%nat); (239, 1%nat); (240, 1%nat); (241, 1%nat); (242, 1%nat);
  (243, 1%nat); (244, 1%nat); (245, 1%nat); (246, 1%nat); (247, 1%nat); (248, 1%nat); (249, 1%nat);
  (250, 1%nat); (251, 1%nat); (252, 1%nat); (253, 1%nat); (254, 1%nat); (256, 1%nat); (257, 1%nat);
  (258, 1%nat); (259, 1%nat); (260, 1%nat); (262, 1%nat); (263, 1%nat); (264, 1%nat); (265, 1%nat);
  (266, 1%nat); (277, 1%nat); (278, 1%nat); (279, 1%nat); (280, 1%nat); (283, 1%nat)];
  [(129, 3%nat)];
  [(287, 3%nat)];
  [(94, 2%nat); (95, 2%nat)];
  [(83, 3%nat)];
  [(91, 2%nat); (92, 2%nat)];
  [(96, 2%nat); (97, 2%nat)];
  [(270, 3%nat)];
  [(196, 2%nat); (197, 2%nat)];
  [(271, 3%nat)];
  [(7, 2%nat)];
  [(261, 3%nat)];
  [(195, 3%nat)];
  [(198, 1%nat); (213, 3%nat); (217, 1%nat); (219, 1%nat); (225, 1%nat); (226, 1%nat); (227, 1%nat);
  (228, 1%nat); (229, 1%nat); (230, 1%nat); (231, 1%nat); (232, 1%nat); (233, 1%nat); (234, 1%nat);
  (235, 1%nat); (236, 1%nat); (237, 1%nat); (238, 1%nat); (239, 1%nat); (240, 1%nat); (241, 1%nat);
  (242, 1%nat); (243, 1%nat); (244, 1%nat); (245, 1%nat); (246, 1%nat); (247, 1%nat); (248, 1%nat);
  (249, 1%nat); (250, 1%nat); (251, 1%nat); (252, 1%nat); (253, 1%nat); (254, 1%nat); (256, 1%nat);
  (257, 1%nat); (258, 1%nat); (259, 1%nat); (260, 1%nat); (262, 1%nat); (263, 1%nat); (264, 1%nat);
  (265, 1%nat); (266, 1%nat); (277, 1%nat); (278, 1%nat); (279, 1%nat); (280, 1%nat); (283, 1%nat)];
  [(215, 3%nat); (271, 1%nat); (272, 1%nat)];
  [(214, 3%nat); (217, 1%nat); (219, 1%nat); (262, 1%nat); (277, 1%nat); (278, 1%nat); (279, 1%nat);
  (280, 1%nat); (283, 1%nat)];
  [(288, 3%nat)];
  [(275, 3%nat); (276, 3%nat)];
  [(82, 3%nat)];
  [(217, 1%nat); (219, 1%nat); (225, 1%nat); (226, 1%nat); (227, 1%nat); (228, 1%nat); (229, 1%nat);
  (230, 1%nat); (231, 1%nat); (232, 1%nat); (233, 1%nat); (234, 1%nat); (235, 1%nat); (236, 1%nat);
  (237, 1%nat); (238, 1%nat); (239, 1%nat); (240, 1%nat); (241, 1%nat); (242, 1%nat); (243, 1%nat);
  (244, 1%nat); (245, 1%nat); (246, 1%nat); (247, 1%nat); (248, 1%nat); (249, 1%nat); (250, 1%nat);
  (251, 1%nat); (252, 1%nat); (253, 1%nat); (254, 1%nat); (256, 1%nat); (257, 1%nat); (258, 1%nat);
  (259, 1%nat); (260, 1%nat); (262, 1%nat); (263, 1%nat); (264, 1%nat); (265, 1%nat); (265, 3%nat);
  (266, 1%nat); (277, 1%nat); (278, 1%nat); (279, 1%nat); (280, 1%nat); (283, 1%nat)];
  [(217, 1%nat); (219, 1%nat); (225, 1%nat); (226, 1%nat); (227, 1%nat); (228, 1%nat); (229, 1%nat);
  (230, 1%nat); (231, 1%nat); (232, 1%nat); (233, 1%nat); (234, 1%nat); (235, 1%nat); (236, 1%nat);
  (237, 1%nat); (238, 1%nat); (239, 1%nat); (240, 1%nat); (241, 1%nat); (242, 1%nat); (243, 1%nat);
  (244, 1%nat); (245, 1%nat); (246, 1%nat); (247, 1%nat); (248, 1%nat); (249, 1%nat); (250, 1%nat);
  (251, 1%nat); (252, 1%nat); (253, 1%nat); (254, 1%nat); (256, 1%nat); (257, 1%nat); (258, 1%nat);
  (259, 1%nat); (260, 1%nat); (262, 1%nat); (263, 1%nat); (264, 1%nat); (265, 1%nat); (266, 1%nat);
  (266, 3%nat); (277, 1%nat); (278, 1%nat); (279, 1%nat); (280, 1%nat); (283, 1%nat)];
  [(217, 1%nat); (219, 1%nat); (225, 1%nat); (226, 1%nat); (227, 1%nat); (228, 1%nat); (229, 1%nat);
  (230, 1%nat); (231, 1%nat); (232, 1%nat); (233, 1%nat); (234, 1%nat); (235, 1%nat); (236, 1%nat);
  (237, 1%nat); (238, 1%nat); (239, 1%nat); (240, 1%nat); (241, 1%nat); (242, 1%nat); (243, 1%nat);
  (244, 1%nat); (245, 1%nat); (246, 1%nat); (247, 1%nat); (248, 1%nat); (249, 1%nat); (250, 1%nat);
  (251, 1%nat); (252, 1%nat); (253, 3%nat); (254, 1%nat); (256, 1%nat); (257, 1%nat); (258, 1%nat);
  (259, 1%nat); (260, 1%nat); (262, 1%nat); (263, 1%nat); (264, 1%nat); (277, 1%nat); (278, 1%nat);
  (279, 1%nat); (280, 1%nat); (283, 1%nat)];
  [(217, 1%nat); (219, 1%nat); (225, 1%nat); (226, 1%nat); (227, 1%nat); (228, 1%nat); (229, 1%nat);
  (230, 1%nat); (231, 1%nat); (232, 1%nat); (233, 1%nat); (234, 1%nat); (235, 1%nat); (236, 1%nat);
  (237, 1%nat); (238, 1%nat); (239, 1%nat); (240, 1%nat); (241, 1%nat); (242, 1%nat); (243, 1%nat);
  (244, 1%nat); (245, 1%nat); (246, 1%nat); (247, 1%nat); (248, 1%nat); (249, 1%nat); (250, 1%nat);
  (251, 1%nat); (252, 1%nat); (254, 3%nat); (256, 1%nat); (257, 1%nat); (258, 1%nat); (259, 1%nat);
  (260, 1%nat); (262, 1%nat); (263, 1%nat); (264, 1%nat); (277, 1%nat); (278, 1%nat); (279, 1%nat);
  (280, 1%nat); (283, 1%nat)];
  [(217, 1%nat); (219, 1%nat); (225, 1%nat); (226, 1%nat); (227, 1%nat); (228, 1%nat); (229, 1%nat);
  (230, 1%nat); (231, 1%nat); (232, 1%nat); (233, 1%nat); (235, 1%nat); (236, 3%nat); (237, 1%nat);
  (238, 1%nat); (239, 1%nat); (240, 1%nat); (241, 1%nat); (242, 1%nat); (243, 1%nat); (244, 1%nat);
  (245, 1%nat); (246, 1%nat); (247, 1%nat); (248, 1%nat); (249, 1%nat); (250, 1%nat); (251, 1%nat);
  (252, 1%nat); (256, 1%nat); (257, 1%nat); (258, 1%nat); (259, 1%nat); (260, 1%nat); (262, 1%nat);
  (263, 1%nat); (264, 1%nat); (277, 1%nat); (278, 1%nat); (279, 1%nat); (280, 1%nat); (283, 1%nat)];
  [(217, 1%nat); (219, 1%nat); (225, 1%nat); (226, 1%nat); (227, 1%nat); (228, 1%nat); (229, 1%nat);
  (230, 1%nat); (231, 1%nat); (232, 1%nat); (233, 1%nat); (234, 3%nat); (235, 1%nat); (237, 1%nat);
  (238, 1%nat); (239, 1%nat); (240, 1%nat); (241, 1%nat); (242, 1%nat); (243, 1%nat); (244, 1%nat);
  (245, 1%nat); (246, 1%nat); (247, 1%nat); (248, 1%nat); (249, 1%nat); (250, 1%nat); (251, 1%nat);
  (252, 1%nat); (256, 1%nat); (257, 1%nat); (258, 1%nat); (259, 1%nat); (260, 1%nat); (262, 1%nat);
  (263, 1%nat); (264, 1%nat); (277, 1%nat); (278, 1%nat); (279, 1%nat); (280, 1%nat); (283, 1%nat)];
  [(217, 1%nat); (219, 1%nat); (225, 1%nat); (226, 1%nat); (227, 1%nat); (228, 1%nat); (229, 1%nat);
  (230, 1%nat); (231, 1%nat); (232, 1%nat); (233, 1%nat); (235, 3%nat); (237, 1%nat); (238, 1%nat);
  (239, 1%nat); (240, 1%nat); (241, 1%nat); (242, 1%nat); (243, 1%nat); (244, 1%nat); (245, 1%nat);
  (246, 1%nat); (247, 1%nat); (248, 1%nat); (249, 1%nat); (250, 1%nat); (251, 1%nat); (252, 1%nat);
  (256, 1%nat); (257, 1%nat); (258, 1%nat); (259, 1%nat); (260, 1%nat); (262, 1%nat); (263, 1%nat);
  (264, 1%nat); (277, 1%nat); (278, 1%nat); (279, 1%nat); (280, 1%nat); (283, 1%nat)];
  [(217, 1%nat); (219, 1%nat); (225, 1%nat); (226, 1%nat); (227, 1%nat); (228, 1%nat); (229, 1%nat);
  (230, 1%nat); (231, 1%nat); (232, 1%nat); (233, 1%nat); (237, 1%nat); (238, 3%nat); (240, 1%nat);
  (241, 1%nat); (242, 1%nat); (243, 1%nat); (244, 1%nat); (247, 1%nat); (248, 1%nat); (249, 1%nat);
  (250, 1%nat); (251, 1%nat); (252, 1%nat); (256, 1%nat); (257, 1%nat); (258, 1%nat); (259, 1%nat);
  (260, 1%nat); (262, 1%nat); (263, 1%nat); (264, 1%nat); (277, 1%nat); (278, 1%nat); (279, 1%nat);
  (280, 1%nat); (283, 1%nat)];
  [(217, 1%nat); (219, 1%nat); (225, 1%nat); (226, 1%nat); (227, 1%nat); (228, 1%nat); (229, 1%nat);
  (230, 1%nat); (231, 1%nat); (232, 1%nat); (233, 1%nat); (237, 1%nat); (239, 3%nat); (240, 1%nat);
  (241, 1%nat); (242, 1%nat); (243, 1%nat); (244, 1%nat); (247, 1%nat); (248, 1%nat); (249, 1%nat);
  (250, 1%nat); (251, 1%nat); (252, 1%nat); (256, 1%nat); (257, 1%nat); (258, 1%nat); (259, 1%nat);
  (260, 1%nat); (262, 1%nat); (263, 1%nat); (264, 1%nat); (277, 1%nat); (278, 1%nat); (279, 1%nat);
  (280, 1%nat); (283, 1%nat)];
  [(217, 1%nat); (219, 1%nat); (225, 1%nat); (226, 1%nat); (227, 1%nat); (228, 1%nat); (229, 1%nat);
  (230, 1%nat); (231, 1%nat); (232, 1%nat); (233, 1%nat); (237, 1%nat); (240, 1%nat); (241, 1%nat);
  (242, 1%nat); (243, 1%nat); (244, 1%nat); (245, 3%nat); (247, 1%nat); (248, 1%nat); (249, 1%nat);
  (250, 1%nat); (251, 1%nat); (252, 1%nat); (256, 1%nat); (257, 1%nat); (258, 1%nat); (259, 1%nat);
  (260, 1%nat); (262, 1%nat); (263, 1%nat); (264, 1%nat); (277, 1%nat); (278, 1%nat); (279, 1%nat);
  (280, 1%nat); (283, 1%nat)];
  [(217, 1%nat); (219, 1%nat); (225, 1%nat); (226, 1%nat); (227, 1%nat); (228, 1%nat); (229, 1%nat);
  (230, 1%nat); (231, 1%nat); (232, 1%nat); (233, 1%nat); (237, 1%nat); (240, 1%nat); (241, 1%nat);
  (242, 1%nat); (243, 1%nat); (244, 1%nat); (246, 3%nat); (247, 1%nat); (248, 1%nat); (249, 1%nat);
  (250, 1%nat); (251, 1%nat); (252, 1%nat); (256, 1%nat); (257, 1%nat); (258, 1%nat); (259, 1%nat);
  (260, 1%nat); (262, 1%nat); (263, 1%nat); (264, 1%nat); (277, 1%nat); (278, 1%nat); (279, 1%nat);
  (280, 1%nat); (283, 1%nat)];
  [(217, 1%nat); (219, 1%nat); (225, 1%nat); (226, 1%nat); (227, 1%nat); (228, 1%nat); (229, 1%nat);
  (230, 1%nat); (231, 1%nat); (232, 1%nat); (233, 1%nat); (237, 1%nat); (240, 3%nat); (252, 1%nat);
  (262, 1%nat); (277, 1%nat); (278, 1%nat); (279, 1%nat); (280, 1%nat); (283, 1%nat)];
  [(217, 1%nat); (219, 1%nat); (225, 1%nat); (226, 1%nat); (227, 1%nat); (228, 1%nat); (229, 1%nat);
  (230, 1%nat); (231, 1%nat); (232, 1%nat); (233, 1%nat); (237, 1%nat); (241, 3%nat); (252, 1%nat);
  (262, 1%nat); (277, 1%nat); (278, 1%nat); (279, 1%nat); (280, 1%nat); (283, 1%nat)];
  [(217, 1%nat); (219, 1%nat); (225, 1%nat); (226, 1%nat); (227, 1%nat); (228, 1%nat); (229, 1%nat);
  (230, 1%nat); (231, 1%nat); (232, 1%nat); (233, 1%nat); (237, 1%nat); (242, 3%nat); (252, 1%nat);
  (262, 1%nat); (277, 1%nat); (278, 1%nat); (279, 1%nat); (280, 1%nat); (283, 1%nat)];
  [(217, 1%nat); (219, 1%nat); (225, 1%nat); (226, 1%nat); (227, 1%nat); (228, 1%nat); (229, 1%nat);
  (230, 1%nat); (231, 1%nat); (232, 1%nat); (233, 1%nat); (237, 1%nat); (243, 3%nat); (252, 1%nat);
  (262, 1%nat); (277, 1%nat); (278, 1%nat); (279, 1%nat); (280, 1%nat); (283, 1%nat)];
  [(217, 1%nat); (219, 1%nat); (225, 1%nat); (226, 1%nat); (227, 1%nat); (228, 1%nat); (229, 1%nat);
  (230, 1%nat); (231, 1%nat); (232, 1%nat); (233, 1%nat); (237, 1%nat); (247, 3%nat); (252, 1%nat);
  (262, 1%nat); (277, 1%nat); (278, 1%nat); (279, 1%nat); (280, 1%nat); (283, 1%nat)];
  [(217, 1%nat); (219, 1%nat); (225, 1%nat); (226, 1%nat); (227, 1%nat); (228, 1%nat); (229, 1%nat);
  (230, 1%nat); (231, 1%nat); (232, 1%nat); (233, 1%nat); (237, 1%nat); (248, 3%nat); (252, 1%nat);
  (262, 1%nat); (277, 1%nat); (278, 1%nat); (279, 1%nat); (280, 1%nat); (283, 1%nat)];
  [(217, 1%nat); (219, 1%nat); (225, 1%nat); (226, 1%nat); (227, 1%nat); (228, 1%nat); (229, 1%nat);
  (230, 1%nat); (231, 1%nat); (232, 1%nat); (233, 1%nat); (237, 1%nat); (249, 3%nat); (252, 1%nat);
  (262, 1%nat); (277, 1%nat); (278, 1%nat); (279, 1%nat); (280, 1%nat); (283, 1%nat)];
  [(217, 1%nat); (219, 1%nat); (225, 1%nat); (226, 1%nat); (227, 1%nat); (228, 1%nat); (229, 1%nat);
  (230, 1%nat); (231, 1%nat); (232, 1%nat); (233, 1%nat); (237, 1%nat); (250, 3%nat); (252, 1%nat);
  (262, 1%nat); (277, 1%nat); (278, 1%nat); (279, 1%nat); (280, 1%nat); (283, 1%nat)];
  [(256, 3%nat)];
  [(257, 3%nat)];
  [(258, 3%nat)];
  [(259, 3%nat)];
  [(260, 3%nat)];
  [(217, 1%nat); (219, 1%nat); (225, 1%nat); (226, 1%nat); (227, 1%nat); (228, 1%nat); (229, 1%nat);
  (230, 1%nat); (231, 1%nat); (232, 1%nat); (233, 1%nat); (237, 1%nat); (244, 3%nat); (252, 1%nat);
  (262, 1%nat); (277, 1%nat); (278, 1%nat); (279, 1%nat); (280, 1%nat); (283, 1%nat)];
  [(217, 1%nat); (219, 1%nat); (225, 1%nat); (226, 1%nat); (227, 1%nat); (228, 1%nat); (229, 1%nat);
  (230, 1%nat); (231, 1%nat); (232, 1%nat); (233, 1%nat); (237, 1%nat); (251, 3%nat); (252, 1%nat);
  (262, 1%nat); (277, 1%nat); (278, 1%nat); (279, 1%nat); (280, 1%nat); (283, 1%nat)];
  [(264, 3%nat)];
  [(263, 3%nat)];
  [(217, 1%nat); (219, 1%nat); (225, 1%nat); (226, 1%nat); (227, 1%nat); (228, 1%nat); (229, 1%nat);
  (230, 1%nat); (231, 1%nat); (232, 1%nat); (233, 1%nat); (237, 3%nat); (252, 1%nat); (262, 1%nat);
  (277, 1%nat); (278, 1%nat); (279, 1%nat); (280, 1%nat); (283, 1%nat)];
  [(217, 1%nat); (219, 1%nat); (225, 3%nat); (227, 1%nat); (228, 1%nat); (229, 1%nat); (230, 1%nat);
  (231, 1%nat); (232, 1%nat); (233, 1%nat); (262, 1%nat); (277, 1%nat); (278, 1%nat); (279, 1%nat);
  (280, 1%nat); (283, 1%nat)];
  [(217, 1%nat); (219, 1%nat); (226, 3%nat); (227, 1%nat); (228, 1%nat); (229, 1%nat); (230, 1%nat);
  (231, 1%nat); (232, 1%nat); (233, 1%nat); (262, 1%nat); (277, 1%nat); (278, 1%nat); (279, 1%nat);
  (280, 1%nat); (283, 1%nat)];
  [(217, 1%nat); (219, 1%nat); (227, 1%nat); (228, 1%nat); (229, 1%nat); (230, 1%nat); (231, 1%nat);
  (232, 1%nat); (233, 1%nat); (252, 3%nat); (262, 1%nat); (277, 1%nat); (278, 1%nat); (279, 1%nat);
  (280, 1%nat); (283, 1%nat)];
  [(217, 1%nat); (219, 1%nat); (227, 3%nat); (262, 1%nat); (277, 1%nat); (278, 1%nat); (279, 1%nat);
  (280, 1%nat); (283, 1%nat)];
  [(217, 1%nat); (219, 1%nat); (228, 3%nat); (262, 1%nat); (277, 1%nat); (278, 1%nat); (279, 1%nat);
  (280, 1%nat); (283, 1%nat)];
  [(217, 1%nat); (219, 1%nat); (229, 3%nat); (262, 1%nat); (277, 1%nat); (278, 1%nat); (279, 1%nat);
  (280, 1%nat); (283, 1%nat)];
  [(217, 1%nat); (219, 1%nat); (230, 3%nat); (262, 1%nat); (277, 1%nat); (278, 1%nat); (279, 1%nat);
  (280, 1%nat); (283, 1%nat)];
  [(217, 1%nat); (219, 1%nat); (231, 3%nat); (262, 1%nat); (277, 1%nat); (278, 1%nat); (279, 1%nat);
  (280, 1%nat); (283, 1%nat)];
  [(217, 1%nat); (219, 1%nat); (232, 3%nat); (262, 1%nat); (277, 1%nat); (278, 1%nat); (279, 1%nat);
  (280, 1%nat); (283, 1%nat)];
  [(217, 1%nat); (219, 1%nat); (233, 3%nat); (262, 1%nat); (277, 1%nat); (278, 1%nat); (279, 1%nat);
  (280, 1%nat); (283, 1%nat)];
  [(280, 3%nat)];
  [(283, 3%nat)];
  [(262, 3%nat); (279, 3%nat)];
  [(277, 3%nat); (278, 3%nat)];
  [(217, 1%nat); (219, 1%nat); (225, 1%nat); (226, 1%nat); (227, 1%nat); (228, 1%nat); (229, 1%nat);
  (230, 1%nat); (231, 1%nat); (232, 1%nat); (233, 1%nat); (234, 1%nat); (235, 1%nat); (236, 1%nat);
  (237, 1%nat); (238, 1%nat); (239, 1%nat); (240, 1%nat); (241, 1%nat); (242, 1%nat); (243, 1%nat);
  (244, 1%nat); (245, 1%nat); (246, 1%nat); (247, 1%nat); (248, 1%nat); (249, 1%nat); (250, 1%nat);
  (251, 1%nat); (252, 1%nat); (253, 1%nat); (254, 1%nat); (256, 1%nat); (257, 1%nat); (258, 1%nat);
  (259, 1%nat); (260, 1%nat); (262, 1%nat); (263, 1%nat); (264, 1%nat); (265, 1%nat); (266, 1%nat);
  (277, 1%nat); (278, 1%nat); (279, 1%nat); (280, 1%nat); (281, 3%nat); (283, 1%nat)];
  [(285, 3%nat)];
  [(217, 1%nat); (219, 1%nat); (225, 1%nat); (226, 1%nat); (227, 1%nat); (228, 1%nat); (229, 1%nat);
  (230, 1%nat); (231, 1%nat); (232, 1%nat); (233, 1%nat); (234, 1%nat); (235, 1%nat); (236, 1%nat);
  (237, 1%nat); (238, 1%nat); (239, 1%nat); (240, 1%nat); (241, 1%nat); (242, 1%nat); (243, 1%nat);
  (244, 1%nat); (245, 1%nat); (246, 1%nat); (247, 1%nat); (248, 1%nat); (249, 1%nat); (250, 1%nat);
  (251, 1%nat); (252, 1%nat); (253, 1%nat); (254, 1%nat); (256, 1%nat); (257, 1%nat); (258, 1%nat);
  (259, 1%nat); (260, 1%nat); (262, 1%nat); (263, 1%nat); (264, 1%nat); (265, 1%nat); (266, 1%nat);
  (277, 1%nat); (278, 1%nat); (279, 1%nat); (280, 1%nat); (282, 3%nat); (283, 1%nat)];
  [(284, 3%nat)];
  [(29, 1%nat)];
  [(25, 2%nat)];
  [(28, 1%nat)];
  [(80, 5%nat); (81, 5%nat)];
  [(78, 5%nat); (79, 5%nat)];
  [(75, 2%nat)];
  [(68, 3%nat)];
  [(71, 2%nat); (72, 2%nat)];
  [(77, 6%nat)];
  [(76, 6%nat)];
  [(162, 4%nat)];
  [(273, 4%nat)];
  [(63, 2%nat)];
  [(153, 4%nat); (154, 4%nat)];
  [(155, 4%nat)];
  [(156, 4%nat)];
  [(138, 4%nat)];
  [(139, 4%nat); (140, 4%nat)];
  [(141, 4%nat)];
  [(142, 4%nat)];
  [(149, 4%nat)];
  [(21, 3%nat)];
  [(23, 3%nat); (217, 1%nat); (219, 1%nat); (225, 1%nat); (226, 1%nat); (227, 1%nat); (228, 1%nat);
  (229, 1%nat); (230, 1%nat); (231, 1%nat); (232, 1%nat); (233, 1%nat); (234, 1%nat); (235, 1%nat);
  (236, 1%nat); (237, 1%nat); (238, 1%nat); (239, 1%nat); (240, 1%nat); (241, 1%nat); (242, 1%nat);
  (243, 1%nat); (244, 1%nat); (245, 1%nat); (246, 1%nat); (247, 1%nat); (248, 1%nat); (249, 1%nat);
  (250, 1%nat); (251, 1%nat); (252, 1%nat); (253, 1%nat); (254, 1%nat); (256, 1%nat); (257, 1%nat);
  (258, 1%nat); (259, 1%nat); (260, 1%nat); (262, 1%nat); (263, 1%nat); (264, 1%nat); (265, 1%nat);
  (266, 1%nat); (277, 1%nat); (278, 1%nat); (279, 1%nat); (280, 1%nat); (283, 1%nat)];
  [(22, 3%nat)];
  [(24, 3%nat); (217, 1%nat); (219, 1%nat); (225, 1%nat); (226, 1%nat); (227, 1%nat); (228, 1%nat);
  (229, 1%nat); (230, 1%nat); (231, 1%nat); (232, 1%nat); (233, 1%nat); (234, 1%nat); (235, 1%nat);
  (236, 1%nat); (237, 1%nat); (238, 1%nat); (239, 1%nat); (240, 1%nat); (241, 1%nat); (242, 1%nat);
  (243, 1%nat); (244, 1%nat); (245, 1%nat); (246, 1%nat); (247, 1%nat); (248, 1%nat); (249, 1%nat);
  (250, 1%nat); (251, 1%nat); (252, 1%nat); (253, 1%nat); (254, 1%nat); (256, 1%nat); (257, 1%nat);
  (258, 1%nat); (259, 1%nat); (260, 1%nat); (262, 1%nat); (263, 1%nat); (264, 1%nat); (265, 1%nat);
  (266, 1%nat); (277, 1%nat); (278, 1%nat); (279, 1%nat); (280, 1%nat); (283, 1%nat)];
  [(286, 4%nat)];
  [(129, 4%nat); (217, 1%nat); (219, 1%nat); (225, 1%nat); (226, 1%nat); (227, 1%nat); (228, 1%nat);
  (229, 1%nat); (230, 1%nat); (231, 1%nat); (232, 1%nat); (233, 1%nat); (234, 1%nat); (235, 1%nat);
  (236, 1%nat); (237, 1%nat); (238, 1%nat); (239, 1%nat); (240, 1%nat); (241, 1%nat); (242, 1%nat);
  (243, 1%nat); (244, 1%nat); (245, 1%nat); (246, 1%nat); (247, 1%nat); (248, 1%nat); (249, 1%nat);
  (250, 1%nat); (251, 1%nat); (252, 1%nat); (253, 1%nat); (254, 1%nat); (256, 1%nat); (257, 1%nat);
  (258, 1%nat); (259, 1%nat); (260, 1%nat); (262, 1%nat); (263, 1%nat); (264, 1%nat); (265, 1%nat);
  (266, 1%nat); (277, 1%nat); (278, 1%nat); (279, 1%nat); (280, 1%nat); (283, 1%nat)];
  [(287, 4%nat)];
  [(94, 3%nat); (95, 3%nat)];
  [(83, 4%nat)];
  [(91, 3%nat)];
  [(96, 1%nat); (97, 1%nat)];
  [(96, 3%nat); (97, 3%nat)];
  [(196, 3%nat); (217, 1%nat); (219, 1%nat); (225, 1%nat); (226, 1%nat); (227, 1%nat); (228, 1%nat);
  (229, 1%nat); (230, 1%nat); (231, 1%nat); (232, 1%nat); (233, 1%nat); (234, 1%nat); (235, 1%nat);
  (236, 1%nat); (237, 1%nat); (238, 1%nat); (239, 1%nat); (240, 1%nat); (241, 1%nat); (242, 1%nat);
  (243, 1%nat); (244, 1%nat); (245, 1%nat); (246, 1%nat); (247, 1%nat); (248, 1%nat); (249, 1%nat);
  (250, 1%nat); (251, 1%nat); (252, 1%nat); (253, 1%nat); (254, 1%nat); (256, 1%nat); (257, 1%nat);
  (258, 1%nat); (259, 1%nat); (260, 1%nat); (262, 1%nat); (263, 1%nat); (264, 1%nat); (265, 1%nat);
  (266, 1%nat); (277, 1%nat); (278, 1%nat); (279, 1%nat); (280, 1%nat); (283, 1%nat)];
  [(217, 1%nat); (219, 1%nat); (261, 4%nat); (262, 1%nat); (277, 1%nat); (278, 1%nat); (279, 1%nat);
  (280, 1%nat); (283, 1%nat)];
  [(213, 4%nat)];
  [(198, 1%nat); (215, 4%nat); (217, 1%nat); (219, 1%nat); (225, 1%nat); (226, 1%nat); (227, 1%nat);
  (228, 1%nat); (229, 1%nat); (230, 1%nat); (231, 1%nat); (232, 1%nat); (233, 1%nat); (234, 1%nat);
  (235, 1%nat); (236, 1%nat); (237, 1%nat); (238, 1%nat); (239, 1%nat); (240, 1%nat); (241, 1%nat);
  (242, 1%nat); (243, 1%nat); (244, 1%nat); (245, 1%nat); (246, 1%nat); (247, 1%nat); (248, 1%nat);
  (249, 1%nat); (250, 1%nat); (251, 1%nat); (252, 1%nat); (253, 1%nat); (254, 1%nat); (256, 1%nat);
  (257, 1%nat); (258, 1%nat); (259, 1%nat); (260, 1%nat); (262, 1%nat); (263, 1%nat); (264, 1%nat);
  (265, 1%nat); (266, 1%nat); (277, 1%nat); (278, 1%nat); (279, 1%nat); (280, 1%nat); (283, 1%nat)];
  [(288, 4%nat)];
  [(275, 4%nat)];
  [(82, 4%nat)];
  [(217, 1%nat); (219, 1%nat); (225, 1%nat); (226, 1%nat); (227, 1%nat); (228, 1%nat); (229, 1%nat);
  (230, 1%nat); (231, 1%nat); (232, 1%nat); (233, 1%nat); (234, 1%nat); (235, 1%nat); (236, 1%nat);
  (237, 1%nat); (238, 1%nat); (239, 1%nat); (240, 1%nat); (241, 1%nat); (242, 1%nat); (243, 1%nat);
  (244, 1%nat); (245, 1%nat); (246, 1%nat); (247, 1%nat); (248, 1%nat); (249, 1%nat); (250, 1%nat);
  (251, 1%nat); (252, 1%nat); (253, 1%nat); (254, 1%nat); (256, 1%nat); (257, 1%nat); (258, 1%nat);
  (259, 1%nat); (260, 1%nat); (262, 1%nat); (263, 1%nat); (264, 1%nat); (265, 1%nat); (266, 1%nat);
  (277, 1%nat); (278, 1%nat); (279, 1%nat); (280, 1%nat); (280, 4%nat); (283, 1%nat)];
  [(283, 4%nat)];
  [(262, 4%nat)];
  [(279, 4%nat)];
  [(277, 4%nat)];
  [(281, 4%nat)];
  [(285, 4%nat)];
  [(282, 4%nat)];
  [(284, 4%nat)];
  [(31, 1%nat)];
  [(29, 2%nat); (30, 1%nat)];
  [(80, 6%nat); (81, 6%nat)];
  [(85, 1%nat); (86, 1%nat); (87, 1%nat)];
  [(88, 1%nat)];
  [(89, 1%nat); (90, 1%nat)];
  [(78, 6%nat); (79, 6%nat)];
  [(75, 3%nat)];
  [(71, 3%nat)];
  [(76, 7%nat)];
  [(162, 5%nat)];
  [(273, 5%nat)];
  [(153, 5%nat); (154, 5%nat)];
  [(155, 5%nat)];
  [(156, 5%nat)];
  [(138, 5%nat); (217, 1%nat); (219, 1%nat); (225, 1%nat); (226, 1%nat); (227, 1%nat); (228, 1%nat);
  (229, 1%nat); (230, 1%nat); (231, 1%nat); (232, 1%nat); (233, 1%nat); (234, 1%nat); (235, 1%nat);
  (236, 1%nat); (237, 1%nat); (238, 1%nat); (239, 1%nat); (240, 1%nat); (241, 1%nat); (242, 1%nat);
  (243, 1%nat); (244, 1%nat); (245, 1%nat); (246, 1%nat); (247, 1%nat); (248, 1%nat); (249, 1%nat);
  (250, 1%nat); (251, 1%nat); (252, 1%nat); (253, 1%nat); (254, 1%nat); (256, 1%nat); (257, 1%nat);
  (258, 1%nat); (259, 1%nat); (260, 1%nat); (262, 1%nat); (263, 1%nat); (264, 1%nat); (265, 1%nat);
  (266, 1%nat); (277, 1%nat); (278, 1%nat); (279, 1%nat); (280, 1%nat); (283, 1%nat)];
  [(140, 5%nat); (271, 1%nat); (272, 1%nat)];
  [(139, 5%nat); (217, 1%nat); (219, 1%nat); (225, 1%nat); (226, 1%nat); (227, 1%nat); (228, 1%nat);
  (229, 1%nat); (230, 1%nat); (231, 1%nat); (232, 1%nat); (233, 1%nat); (234, 1%nat); (235, 1%nat);
  (236, 1%nat); (237, 1%nat); (238, 1%nat); (239, 1%nat); (240, 1%nat); (241, 1%nat); (242, 1%nat);
  (243, 1%nat); (244, 1%nat); (245, 1%nat); (246, 1%nat); (247, 1%nat); (248, 1%nat); (249, 1%nat);
  (250, 1%nat); (251, 1%nat); (252, 1%nat); (253, 1%nat); (254, 1%nat); (256, 1%nat); (257, 1%nat);
  (258, 1%nat); (259, 1%nat); (260, 1%nat); (262, 1%nat); (263, 1%nat); (264, 1%nat); (265, 1%nat);
  (266, 1%nat); (277, 1%nat); (278, 1%nat); (279, 1%nat); (280, 1%nat); (283, 1%nat)];
  [(141, 5%nat)];
  [(143, 1%nat); (144, 1%nat)];
  [(142, 5%nat)];
  [(23, 4%nat)];
  [(24, 4%nat)];
  [(286, 5%nat)];
  [(287, 5%nat)];
  [(94, 4%nat); (95, 4%nat)];
  [(83, 5%nat)];
  [(96, 4%nat); (97, 4%nat)];
  [(215, 5%nat)];
  [(288, 5%nat)];
  [(275, 5%nat)];
  [(82, 5%nat)];
  [(280, 5%nat)];
  [(283, 5%nat)];
  [(262, 5%nat)];
  [(279, 5%nat)];
  [(277, 5%nat)];
  [(30, 2%nat)];
  [(80, 7%nat); (81, 7%nat)];
  [(86, 2%nat); (87, 2%nat)];
  [(89, 2%nat); (90, 2%nat)];
  [(78, 7%nat); (79, 7%nat)];
  [(154, 6%nat)];
  [(159, 1%nat)];
  [(158, 1%nat)];
  [(155, 6%nat)];
  [(156, 6%nat)];
  [(138, 6%nat)];
  [(140, 6%nat); (198, 1%nat); (217, 1%nat); (219, 1%nat); (225, 1%nat); (226, 1%nat); (227, 1%nat);
  (228, 1%nat); (229, 1%nat); (230, 1%nat); (231, 1%nat); (232, 1%nat); (233, 1%nat); (234, 1%nat);
  (235, 1%nat); (236, 1%nat); (237, 1%nat); (238, 1%nat); (239, 1%nat); (240, 1%nat); (241, 1%nat);
  (242, 1%nat); (243, 1%nat); (244, 1%nat); (245, 1%nat); (246, 1%nat); (247, 1%nat); (248, 1%nat);
  (249, 1%nat); (250, 1%nat); (251, 1%nat); (252, 1%nat); (253, 1%nat); (254, 1%nat); (256, 1%nat);
  (257, 1%nat); (258, 1%nat); (259, 1%nat); (260, 1%nat); (262, 1%nat); (263, 1%nat); (264, 1%nat);
  (265, 1%nat); (266, 1%nat); (277, 1%nat); (278, 1%nat); (279, 1%nat); (280, 1%nat); (283, 1%nat)];
  [(139, 6%nat)];
  [(143, 2%nat); (144, 2%nat)];
  [(146, 1%nat); (147, 1%nat)];
  [(148, 1%nat)];
  [(286, 6%nat)];
  [(287, 6%nat)];
  [(94, 5%nat); (95, 5%nat)];
  [(83, 6%nat)];
  [(96, 5%nat); (97, 5%nat)];
  [(288, 6%nat)];
  [(275, 6%nat)];
  [(82, 6%nat)];
  [(277, 6%nat)];
  [(30, 3%nat)];
  [(81, 8%nat)];
  [(80, 8%nat)];
  [(86, 3%nat)];
  [(89, 3%nat); (90, 3%nat)];
  [(78, 8%nat); (79, 8%nat)];
  [(154, 7%nat)];
  [(159, 2%nat)];
  [(158, 2%nat)];
  [(138, 7%nat)];
  [(140, 7%nat)];
  [(139, 7%nat)];
  [(143, 3%nat)];
  [(144, 3%nat)];
  [(147, 2%nat)];
  [(94, 6%nat); (95, 6%nat)];
  [(83, 7%nat)];
  [(97, 6%nat)];
  [(82, 7%nat)];
  [(89, 4%nat); (90, 4%nat)];
  [(79, 9%nat)];
  [(78, 9%nat)];
  [(159, 3%nat); (217, 1%nat); (219, 1%nat); (225, 1%nat); (226, 1%nat); (227, 1%nat); (228, 1%nat);
  (229, 1%nat); (230, 1%nat); (231, 1%nat); (232, 1%nat); (233, 1%nat); (234, 1%nat); (235, 1%nat);
  (236, 1%nat); (237, 1%nat); (238, 1%nat); (239, 1%nat); (240, 1%nat); (241, 1%nat); (242, 1%nat);
  (243, 1%nat); (244, 1%nat); (245, 1%nat); (246, 1%nat); (247, 1%nat); (248, 1%nat); (249, 1%nat);
  (250, 1%nat); (251, 1%nat); (252, 1%nat); (253, 1%nat); (254, 1%nat); (256, 1%nat); (257, 1%nat);
  (258, 1%nat); (259, 1%nat); (260, 1%nat); (262, 1%nat); (263, 1%nat); (264, 1%nat); (265, 1%nat);
  (266, 1%nat); (277, 1%nat); (278, 1%nat); (279, 1%nat); (280, 1%nat); (283, 1%nat)];
  [(138, 8%nat)];
  [(140, 8%nat)];
  [(144, 4%nat)];
  [(95, 7%nat)];
  [(83, 8%nat)];
  [(97, 7%nat); (217, 1%nat); (219, 1%nat); (225, 1%nat); (226, 1%nat); (227, 1%nat); (228, 1%nat);
  (229, 1%nat); (230, 1%nat); (231, 1%nat); (232, 1%nat); (233, 1%nat); (234, 1%nat); (235, 1%nat);
  (236, 1%nat); (237, 1%nat); (238, 1%nat); (239, 1%nat); (240, 1%nat); (241, 1%nat); (242, 1%nat);
  (243, 1%nat); (244, 1%nat); (245, 1%nat); (246, 1%nat); (247, 1%nat); (248, 1%nat); (249, 1%nat);
  (250, 1%nat); (251, 1%nat); (252, 1%nat); (253, 1%nat); (254, 1%nat); (256, 1%nat); (257, 1%nat);
  (258, 1%nat); (259, 1%nat); (260, 1%nat); (262, 1%nat); (263, 1%nat); (264, 1%nat); (265, 1%nat);
  (266, 1%nat); (277, 1%nat); (278, 1%nat); (279, 1%nat); (280, 1%nat); (283, 1%nat)];
  [(82, 8%nat)];
  [(90, 5%nat)];
  [(159, 4%nat)];
  [(138, 9%nat)];
  [(140, 9%nat)];
  [(95, 8%nat); (217, 1%nat); (219, 1%nat); (225, 1%nat); (226, 1%nat); (227, 1%nat); (228, 1%nat);
  (229, 1%nat); (230, 1%nat); (231, 1%nat); (232, 1%nat); (233, 1%nat); (234, 1%nat); (235, 1%nat);
  (236, 1%nat); (237, 1%nat); (238, 1%nat); (239, 1%nat); (240, 1%nat); (241, 1%nat); (242, 1%nat);
  (243, 1%nat); (244, 1%nat); (245, 1%nat); (246, 1%nat); (247, 1%nat); (248, 1%nat); (249, 1%nat);
  (250, 1%nat); (251, 1%nat); (252, 1%nat); (253, 1%nat); (254, 1%nat); (256, 1%nat); (257, 1%nat);
  (258, 1%nat); (259, 1%nat); (260, 1%nat); (262, 1%nat); (263, 1%nat); (264, 1%nat); (265, 1%nat);
  (266, 1%nat); (277, 1%nat); (278, 1%nat); (279, 1%nat); (280, 1%nat); (283, 1%nat)];
  [(83, 9%nat)];
  [(90, 6%nat); (217, 1%nat); (219, 1%nat); (225, 1%nat); (226, 1%nat); (227, 1%nat); (228, 1%nat);
  (229, 1%nat); (230, 1%nat); (231, 1%nat); (232, 1%nat); (233, 1%nat); (234, 1%nat); (235, 1%nat);
  (236, 1%nat); (237, 1%nat); (238, 1%nat); (239, 1%nat); (240, 1%nat); (241, 1%nat); (242, 1%nat);
  (243, 1%nat); (244, 1%nat); (245, 1%nat); (246, 1%nat); (247, 1%nat); (248, 1%nat); (249, 1%nat);
  (250, 1%nat); (251, 1%nat); (252, 1%nat); (253, 1%nat); (254, 1%nat); (256, 1%nat); (257, 1%nat);
  (258, 1%nat); (259, 1%nat); (260, 1%nat); (262, 1%nat); (263, 1%nat); (264, 1%nat); (265, 1%nat);
  (266, 1%nat); (277, 1%nat); (278, 1%nat); (279, 1%nat); (280, 1%nat); (283, 1%nat)];
  [(159, 5%nat)];
  [(83, 10%nat)];
  [(159, 6%nat)];
  [(83, 11%nat)]].

(** The first tokens of each nonterminal, and whether it can be empty. *)
Definition first_cert : list (N * bool) := [
  (9, false);
  (8, true);
  (34359738368, false);
  (34359738368, false);
  (34359738368, false);
  (560785289936896, false);
  (560785289904128, false);
  (560785289904128, false);
  (560785289904128, false);
  (560785289904128, false);
  (560785289904128, false);
  (561884801564672, false);
  (288230376151711744, true);
  (288230376151711744, false);
  (560785289904128, false);
  (8, true);
  (8, false);
  (8, false);
  (560785289904128, true);
  (1152921504606846976, true);
  (2361183241434822606848, false);
  (72057594040365808, true);
  (72057594040365808, false);
  (72057594040365808, false);
  (72057594037927936, false);
  (2097152, false);
  (512, false);
  (2048, false);
  (4096, false);
  (8192, false);
  (262144, false);
  (65664, false);
  (2361183241434822606848, false);
  (34359738368, true);
  (34359738368, false);
  (34359738368, false);
  (64, false);
  (16, false);
  (65568, false);
  (1180591620717411368992, false);
  (68719476736, true);
  (68719476736, false);
  (68719476736, false);
  (68719476752, false);
  (68719476752, false);
  (65536, true);
  (65536, false);
  (12249581083363103127383496702048329220384, true);
  (12249581083363103127383496702048329220384, false);
  (12249581083363103127383496702048329220384, false);
  (18446744073709551616, false);
  (857773599427494281216, false);
  (36893488147419103232, false);
  (67108864, false);
  (67108864, false);
  (134217728, false);
  (1073741824, false);
  (2361183241434822606848, false);
  (2147483648, true);
  (2147483648, false);
  (2147483648, false);
  (4294967296, false);
  (4194304, false);
  (12582912, false);
  (50331648, true);
  (2361183241434822606848, false);
  (17179869184, false);
  (256, false);
  (68719476736, false);
  (1360545341893072295674677234677810020640, true);
  (1360545341893072295674677234677810020640, true);
  (1360545341893072295674677234677810020640, false);
  (4722366482869645213696, false);
  (1360545341893072295674677234677810020640, false);
  (337037188990257797564919456206224883712, false);
  (674998591609527591708964522798612480, false);
  (1360545341893072295674677234677810020640, false);
  (1360545341893072295674677234677810020640, false);
  (1360545341893072295674677234677810020640, false);
  (1360545341893072295674677234677810020640, false);
  (1360545341893072295674677234677810020640, false);
  (1360545341893072295674677234677810020640, false);
  (1360545341893072295674677234677810020640, false);
  (1360545341893072295674677234677810020640, false);
  (1360545341893072295674677234677810020640, false);
  (1360545341893072295674677234677810020640, false);
  (1360545341893072295674677234677810020640, false);
  (1360545341893072295674677234677810020640, false);
  (1180735735905487224864, false);
  (3541774862152233910272, false);
  (1360545341893072295674677234677810020640, false);
  (1360545341893072295674677234677810020640, false);
  (1360545341893072295674677234677810020640, false);
  (9223372036854775808, false);
  (590295810358705651712, false);
  (2658455991569831745807614120560689152, false)]%N.

(** A rank of the nonterminals: it falls from the left side of a rule to each symbol
    on the right side besides which there can be nothing. *)
Definition rank_cert : list nat := [
  0; 3; 0; 0; 0; 2; 1; 0; 0; 0; 0; 3; 1; 0; 2; 2; 1; 0; 1; 0; 0; 3; 2; 1; 0; 0; 0; 0; 0; 0; 0; 0; 0; 3; 2; 1; 0; 0; 0; 0; 2; 1; 0; 1; 0; 1; 0; 3; 2; 1; 0; 1; 0; 0; 0; 0; 0; 0; 2; 1; 0; 0; 0; 0; 0; 0; 0; 0; 0; 4; 3; 2; 0; 3; 1; 0; 0; 0; 1; 0; 0; 0; 0; 0; 0; 0; 0; 0; 1; 0; 0; 0; 0; 0; 0; 0]%nat.
