(** Tables of the generalized Gauss rules, transcribed from the C++ sources (decimal literals as exact rationals).
    Sources: /repo/queso/quadrature/integration_points_1d/precomputed_ggq_rules_{optimal,reduced1,reduced2}.cpp and
    gauss_legendre_integration_points.cpp. Generated file; every table cites its lines. *)
From Coq Require Import QArith List.
Import ListNotations.
Local Open Scope Q_scope.

(** precomputed_ggq_rules_optimal.cpp:19-55 *)
Definition S_4_0_base_even : list (list (Q * Q)) := [
  [(0.1550510257216821, 0.3764030627004672); (0.6449489742783177, 0.5124858261884216); (1.0961818808345415, 0.4499083234521527); (1.6238181191654583, 0.5435557288354290);
   (2.0940680306370120, 0.4552875074262550); (2.6231733486733328, 0.5445144335521565); (3.0940054122305138, 0.4554514811675806); (3.6231543510830954, 0.5445426834712980);
   (4.0940035685747737, 0.4554563131231461); (4.6231537918313172, 0.5445435150954828); (5.0940035143023196, 0.4554564553669906); (5.6231537753684692, 0.5445435395762341);
   (6.0940035127046874, 0.4554564595542622); (6.6231537748838480, 0.5445435402968801); (7.0940035126576574, 0.4554564596775240); (7.6231537748695821, 0.5445435403180939);
   (8.0940035126562737, 0.4554564596811525); (8.6231537748691629, 0.5445435403187184); (9.0940035126562328, 0.4554564596812593); (9.6231537748691504, 0.5445435403187368);
   (10.094003512656231, 0.4554564596812625); (10.623153774869148, 0.5445435403187374)];
  [(0.0940035126562314, 0.4554564596812625); (0.6231537748691495, 0.5445435403187374)];
  [((-0.9059964873437685), 0.4554564596812625); ((-0.3768462251308504), 0.5445435403187374); (0.0000000000000000, 0.2357022603955158)]].
(** precomputed_ggq_rules_optimal.cpp:57-92 *)
Definition S_4_0_base_odd : list (list (Q * Q)) := [
  [(0.1550510257216821, 0.3764030627004672); (0.6449489742783177, 0.5124858261884216); (1.0961818808345415, 0.4499083234521527); (1.6238181191654583, 0.5435557288354290);
   (2.0940680306370120, 0.4552875074262550); (2.6231733486733328, 0.5445144335521565); (3.0940054122305138, 0.4554514811675806); (3.6231543510830954, 0.5445426834712980);
   (4.0940035685747737, 0.4554563131231461); (4.6231537918313172, 0.5445435150954828); (5.0940035143023196, 0.4554564553669906); (5.6231537753684692, 0.5445435395762341);
   (6.0940035127046874, 0.4554564595542622); (6.6231537748838480, 0.5445435402968801); (7.0940035126576574, 0.4554564596775240); (7.6231537748695821, 0.5445435403180939);
   (8.0940035126562737, 0.4554564596811525); (8.6231537748691629, 0.5445435403187184); (9.0940035126562328, 0.4554564596812593); (9.6231537748691504, 0.5445435403187368);
   (10.094003512656231, 0.4554564596812625); (10.623153774869148, 0.5445435403187374)];
  [(0.0940035126562314, 0.4554564596812625); (0.6231537748691495, 0.5445435403187374)];
  [((-0.4375172639305899), 0.3715857551856717); (0.0000000000000000, 0.4925307500241723)]].
(** precomputed_ggq_rules_optimal.cpp:94-140 *)
Definition S_6_1_base_even : list (list (Q * Q)) := [
  [(0.0926076787364690, 0.2305048699152139); (0.4284719776081420, 0.4070441617765419); (0.8301893554301429, 0.3671151647471710); (1.1864418084568064, 0.3860513146469309);
   (1.6139000245489232, 0.4352195321390286); (2.0001087149907883, 0.3484945801852715); (2.3869357046428150, 0.4362230076851826); (2.8158755522035257, 0.3893473849990720);
   (3.1841245050546591, 0.3893474498446596); (3.6130644392673314, 0.4362230993486436); (4.0000000003658042, 0.3488588706522378); (4.3869355635486693, 0.4362231027342958);
   (4.8158755028125845, 0.3893474613257501); (5.1841244971874154, 0.3893474613257501); (5.6130644364513306, 0.4362231027342958)];
  [(0.0000000000000000, 0.3488588718799080); (0.3869355635486690, 0.4362231027342958); (0.8158755028125850, 0.3893474613257501); (1.1841244971874149, 0.3893474613257501);
   (1.6130644364513309, 0.4362231027342958)];
  [((-6.5000000000000000), 0.3488588718799080); ((-6.1130644364513306), 0.4362231027342958); ((-5.6841244971874154), 0.3893474613257501); ((-5.3158755028125845), 0.3893474613257501);
   ((-4.8869355635486693), 0.4362231027342958); ((-4.5000000000005275), 0.3488588718781365); ((-4.1130644364553941), 0.4362231027294106); ((-3.6841244971987667), 0.3893474613091838);
   ((-3.3158755028838502), 0.3893474612156241); ((-2.8869355637522220), 0.4362231025972325); ((-2.5000041259055167), 0.3488450258123362); ((-2.1130961962162917), 0.4361849197447470);
   ((-1.6842132016006658), 0.3892181373293681); ((-1.3164333038404136), 0.3884825476394018); ((-0.8885488201152921), 0.4350935951843145); ((-0.5127080451864184), 0.3136422475372352);
   ((-0.1889822365046136), 0.3629629629629629)]].
(** precomputed_ggq_rules_optimal.cpp:142-185 *)
Definition S_6_1_base_odd : list (list (Q * Q)) := [
  [(0.0926076787364690, 0.2305048699152139); (0.4284719776081420, 0.4070441617765419); (0.8301893554301429, 0.3671151647471710); (1.1864418084568064, 0.3860513146469309);
   (1.6139000245489232, 0.4352195321390286); (2.0001087149907883, 0.3484945801852715); (2.3869357046428150, 0.4362230076851826); (2.8158755522035257, 0.3893473849990720);
   (3.1841245050546591, 0.3893474498446596); (3.6130644392673314, 0.4362230993486436); (4.0000000003658042, 0.3488588706522378); (4.3869355635486693, 0.4362231027342958);
   (4.8158755028125845, 0.3893474613257501); (5.1841244971874154, 0.3893474613257501); (5.6130644364513306, 0.4362231027342958)];
  [(0.0000000000000000, 0.3488588718799080); (0.3869355635486690, 0.4362231027342958); (0.8158755028125850, 0.3893474613257501); (1.1841244971874149, 0.3893474613257501);
   (1.6130644364513309, 0.4362231027342958)];
  [((-5.1130644364513306), 0.4362231027342958); ((-4.6841244971874154), 0.3893474613257501); ((-4.3158755028125854), 0.3893474613257499); ((-3.8869355635486693), 0.4362231027342955);
   ((-3.5000000049975219), 0.3488588551078113); ((-3.1130644749227625), 0.4362230564804394); ((-2.6841246046675308), 0.3893473044744377); ((-2.3158761776286205), 0.3893464183818660);
   ((-1.8869374920404342), 0.4362218019613904); ((-1.5004028451009869), 0.3475146459826823); ((-1.1161473022682864), 0.4325315154620461); ((-0.6925086935571693), 0.3781951324919340);
   ((-0.3624724648874144), 0.3220111278283742); ((-0.0000000000000000), 0.3883591555379454)]].
(** precomputed_ggq_rules_optimal.cpp:187-262 *)
Definition S_8_2_base_even : list (list (Q * Q)) := [
  [(0.0611024308537384, 0.1537934901036661); (0.2964006017279071, 0.3015294505896247); (0.6260963761268005, 0.3369745803821638); (0.9382560974231145, 0.2868121535424703);
   (1.2384665248335113, 0.3325808856906486); (1.5955069246942119, 0.3623395764142126); (1.9289058929631492, 0.3016127898813490); (2.2363412094591148, 0.3346471788287507);
   (2.5945527044207086, 0.3631827258420067); (2.9286220281318167, 0.3020666115599898); (3.2362786485962380, 0.3347097365435258); (3.5945248524941395, 0.3632074004701199);
   (3.9286137521837809, 0.3020798476330806); (4.2362768264262511, 0.3347115601238639); (4.5945240414700574, 0.3632081190283482); (4.9286135112032969, 0.3020802330476152);
   (5.2362767733694797, 0.3347116132229754); (5.5945240178553508, 0.3632081399507586); (5.9286135041866403, 0.3020802442697791); (6.2362767718246203, 0.3347116147690682);
   (6.5945240171677594, 0.3632081405599583); (6.9286135039823353, 0.3020802445965358); (7.2362767717796385, 0.3347116148140860); (7.5945240171477390, 0.3632081405776965);
   (7.9286135039763872, 0.3020802446060500); (8.2362767717783285, 0.3347116148153967); (8.5945240171471564, 0.3632081405782129); (8.9286135039762140, 0.3020802446063270);
   (9.2362767717782912, 0.3347116148154349); (9.5945240171471386, 0.3632081405782280); (9.9286135039762086, 0.3020802446063351)];
  [(0.2362767717782897, 0.3347116148154360); (0.5945240171471385, 0.3632081405782284); (0.9286135039762085, 0.3020802446063354)];
  [((-10.763723228221710), 0.3347116148154360); ((-10.405475982852861), 0.3632081405782283); ((-10.071386496023791), 0.3020802446063348); ((-9.7637232282217123), 0.3347116148154341);
   ((-9.4054759828528649), 0.3632081405782257); ((-9.0713864960238019), 0.3020802446063204); ((-8.7637232282217549), 0.3347116148153844); ((-8.4054759828529679), 0.3632081405781557);
   ((-8.0713864960240631), 0.3020802446059355); ((-7.7637232282228865), 0.3347116148140563); ((-7.4054759828556999), 0.3632081405762871); ((-7.0713864960310326), 0.3020802445956685);
   ((-6.7637232282530970), 0.3347116147786239); ((-6.4054759829285909), 0.3632081405264343); ((-6.0713864962169878), 0.3020802443217410); ((-5.7637232290591073), 0.3347116138332830);
   ((-5.4054759848733375), 0.3632081391963537); ((-5.0713865011783045), 0.3020802370133180); ((-4.7637232505635838), 0.3347115886114588); ((-4.4054760367594392), 0.3632081037096244);
   ((-4.0713866335467923), 0.3020800420239690); ((-3.7637238243050648), 0.3347109156908804); ((-3.4054774210849338), 0.3632071569224309); ((-3.0713901650688613), 0.3020748399568131);
   ((-2.7637391311494634), 0.3346929629201564); ((-2.4055143530223008), 0.3631818991165765); ((-2.0714843243387903), 0.3019362442576424); ((-1.7641470492891904), 0.3342145889688399);
   ((-1.4064982055714840), 0.3625099427400701); ((-1.0739535299693239), 0.2983760359470398); ((-0.7746648836764193), 0.3219925645864578); ((-0.4312928503428806), 0.3467347931802373);
   ((-0.1209668477634207), 0.2608319946643009)]].
(** precomputed_ggq_rules_optimal.cpp:264-339 *)
Definition S_8_2_base_odd : list (list (Q * Q)) := [
  [(0.0611024308537384, 0.1537934901036661); (0.2964006017279071, 0.3015294505896247); (0.6260963761268005, 0.3369745803821638); (0.9382560974231145, 0.2868121535424703);
   (1.2384665248335113, 0.3325808856906486); (1.5955069246942119, 0.3623395764142126); (1.9289058929631492, 0.3016127898813490); (2.2363412094591148, 0.3346471788287507);
   (2.5945527044207086, 0.3631827258420067); (2.9286220281318167, 0.3020666115599898); (3.2362786485962380, 0.3347097365435258); (3.5945248524941395, 0.3632074004701199);
   (3.9286137521837809, 0.3020798476330806); (4.2362768264262511, 0.3347115601238639); (4.5945240414700574, 0.3632081190283482); (4.9286135112032969, 0.3020802330476152);
   (5.2362767733694797, 0.3347116132229754); (5.5945240178553508, 0.3632081399507586); (5.9286135041866403, 0.3020802442697791); (6.2362767718246203, 0.3347116147690682);
   (6.5945240171677594, 0.3632081405599583); (6.9286135039823353, 0.3020802445965358); (7.2362767717796385, 0.3347116148140860); (7.5945240171477390, 0.3632081405776965);
   (7.9286135039763872, 0.3020802446060500); (8.2362767717783285, 0.3347116148153967); (8.5945240171471564, 0.3632081405782129); (8.9286135039762140, 0.3020802446063270);
   (9.2362767717782912, 0.3347116148154349); (9.5945240171471386, 0.3632081405782280); (9.9286135039762086, 0.3020802446063351)];
  [(0.2362767717782897, 0.3347116148154360); (0.5945240171471385, 0.3632081405782284); (0.9286135039762085, 0.3020802446063354)];
  [((-10.571386496023791), 0.3020802446063353); ((-10.263723228221710), 0.3347116148154357); ((-9.9054759828528631), 0.3632081405782279); ((-9.5713864960237931), 0.3020802446063325);
   ((-9.2637232282217194), 0.3347116148154261); ((-8.9054759828528826), 0.3632081405782143); ((-8.5713864960238446), 0.3020802446062580); ((-8.2637232282219379), 0.3347116148151691);
   ((-7.9054759828534102), 0.3632081405778528); ((-7.5713864960251928), 0.3020802446042715); ((-7.2637232282277830), 0.3347116148083136); ((-6.9054759828675136), 0.3632081405682072);
   ((-6.5713864960611712), 0.3020802445512717); ((-6.2637232283837311), 0.3347116146254078); ((-5.9054759832437859), 0.3632081403108615); ((-5.5713864970210931), 0.3020802431372286);
   ((-5.2637232325444447), 0.3347116097454571); ((-4.9054759932827751), 0.3632081334448433); ((-4.5713865226319363), 0.3020802054103793); ((-4.2637233435528232), 0.3347114795477382);
   ((-3.9054762611242956), 0.3632079502586635); ((-3.5713872059294926), 0.3020791988631352); ((-3.2637263052471321), 0.3347080058861300); ((-2.9054834070961526), 0.3632030629235071);
   ((-2.5714054340712579), 0.3020523513891152); ((-2.2638053061182947), 0.3346153506415598); ((-1.9056740075607119), 0.3630727380721407); ((-1.5718901133065932), 0.3013412746917601);
   ((-1.2659002813781068), 0.3321603344077276); ((-0.9107161958682878), 0.3596538601068878); ((-0.5838002866484455), 0.2857327302619896); ((-0.3110865988395489), 0.2849619563985983);
   (0.0000000000000000, 0.3259268458072143)]].
(** precomputed_ggq_rules_optimal.cpp:356-1030 *)
Definition S_4_0_precomputed : list (list (Q * Q)) := [
  [(0.1127016653792583, 0.2777777777777778); (0.5000000000000000, 0.4444444444444444); (0.8872983346207417, 0.2777777777777778)];
  [(0.0775255128608411, 0.1882015313502336); (0.3224744871391589, 0.2562429130942108); (0.5000000000000000, 0.1111111111111111); (0.6775255128608411, 0.2562429130942108);
   (0.9224744871391589, 0.1882015313502336)];
  [(0.0516836752405607, 0.1254676875668224); (0.2149829914261059, 0.1708286087294739); (0.3547033685486441, 0.1218323586744639); (0.5000000000000000, 0.1637426900584795);
   (0.6452966314513557, 0.1218323586744639); (0.7850170085738940, 0.1708286087294739); (0.9483163247594392, 0.1254676875668224)];
  [(0.0387627564304205, 0.0941007656751168); (0.1612372435695794, 0.1281214565471054); (0.2740454702086354, 0.1124770808630382); (0.4059545297913646, 0.1358889322088573);
   (0.5000000000000000, 0.0588235294117647); (0.5940454702086354, 0.1358889322088573); (0.7259545297913645, 0.1124770808630382); (0.8387627564304205, 0.1281214565471054);
   (0.9612372435695794, 0.0941007656751168)];
  [(0.0310102051443364, 0.0752806125400935); (0.1289897948556636, 0.1024971652376843); (0.2192363761669083, 0.0899816646904305); (0.3247636238330917, 0.1087111457670858);
   (0.4125061578521488, 0.0742801625154566); (0.5000000000000000, 0.0984984984984985); (0.5874938421478512, 0.0742801625154566); (0.6752363761669083, 0.1087111457670858);
   (0.7807636238330917, 0.0899816646904305); (0.8710102051443365, 0.1024971652376843); (0.9689897948556636, 0.0752806125400935)];
  [(0.0258418376202804, 0.0627338437834112); (0.1074914957130530, 0.0854143043647369); (0.1826969801390902, 0.0749847205753588); (0.2706363531942431, 0.0905926214725715);
   (0.3490113384395020, 0.0758812512377092); (0.4371955581122221, 0.0907524055920261); (0.5000000000000000, 0.0392817059483726); (0.5628044418877778, 0.0907524055920261);
   (0.6509886615604979, 0.0758812512377092); (0.7293636468057568, 0.0905926214725715); (0.8173030198609097, 0.0749847205753588); (0.8925085042869469, 0.0854143043647369);
   (0.9741581623797196, 0.0627338437834112)];
  [(0.0221501465316689, 0.0537718661000667); (0.0921355677540454, 0.0732122608840602); (0.1565974115477916, 0.0642726176360218); (0.2319740170236369, 0.0776508184050613);
   (0.2991525758052874, 0.0650410724894650); (0.3747390498104761, 0.0777877762217366); (0.4374977358217148, 0.0530829008417880); (0.5000000000000000, 0.0703613748436005);
   (0.5625022641782852, 0.0530829008417880); (0.6252609501895238, 0.0777877762217366); (0.7008474241947126, 0.0650410724894650); (0.7680259829763629, 0.0776508184050613);
   (0.8434025884522083, 0.0642726176360218); (0.9078644322459546, 0.0732122608840602); (0.9778498534683311, 0.0537718661000667)];
  [(0.0193813782152103, 0.0470503828375584); (0.0806186217847897, 0.0640607282735527); (0.1370227351043177, 0.0562385404315191); (0.2029772648956823, 0.0679444661044286);
   (0.2617585038296265, 0.0569109384282819); (0.3278966685841666, 0.0680643041940196); (0.3867506765288142, 0.0569314351459476); (0.4528942938853869, 0.0680678354339123);
   (0.5000000000000000, 0.0294627383015598); (0.5471057061146131, 0.0680678354339123); (0.6132493234711858, 0.0569314351459476); (0.6721033314158333, 0.0680643041940196);
   (0.7382414961703735, 0.0569109384282819); (0.7970227351043176, 0.0679444661044286); (0.8629772648956823, 0.0562385404315191); (0.9193813782152103, 0.0640607282735527);
   (0.9806186217847898, 0.0470503828375584)];
  [(0.0172278917468536, 0.0418225625222741); (0.0716609971420353, 0.0569428695764913); (0.1217979867593935, 0.0499898137169059); (0.1804242354628287, 0.0603950809817143);
   (0.2326742256263347, 0.0505875008251394); (0.2914637054081481, 0.0605016037280174); (0.3437783791367238, 0.0506057201297312); (0.4025727056758995, 0.0605047426079220);
   (0.4513869753015432, 0.0412872883076714); (0.5000000000000000, 0.0547256352082658); (0.5486130246984567, 0.0412872883076714); (0.5974272943241005, 0.0605047426079220);
   (0.6562216208632762, 0.0506057201297312); (0.7085362945918519, 0.0605016037280174); (0.7673257743736653, 0.0505875008251394); (0.8195757645371712, 0.0603950809817143);
   (0.8782020132406064, 0.0499898137169059); (0.9283390028579647, 0.0569428695764913); (0.9827721082531463, 0.0418225625222741)];
  [(0.0155051025721682, 0.0376403062700467); (0.0644948974278318, 0.0512485826188422); (0.1096181880834542, 0.0449908323452153); (0.1623818119165459, 0.0543555728835429);
   (0.2094068030637012, 0.0455287507426255); (0.2623173348673333, 0.0544514433552157); (0.3094005412230514, 0.0455451481167581); (0.3623154351083095, 0.0544542683471298);
   (0.4094003568574774, 0.0455456313123146); (0.4623153791831318, 0.0544543515095483); (0.5000000000000000, 0.0235702249975221); (0.5376846208168683, 0.0544543515095483);
   (0.5905996431425227, 0.0455456313123146); (0.6376845648916905, 0.0544542683471298); (0.6905994587769486, 0.0455451481167581); (0.7376826651326667, 0.0544514433552157);
   (0.7905931969362988, 0.0455287507426255); (0.8376181880834542, 0.0543555728835429); (0.8903818119165460, 0.0449908323452153); (0.9355051025721682, 0.0512485826188422);
   (0.9844948974278318, 0.0376403062700467)];
  [(0.0140955477928802, 0.0342184602454970); (0.0586317249343925, 0.0465896205625838); (0.0996528982576856, 0.0409007566774684); (0.1476198290150417, 0.0494141571668572);
   (0.1903698209670011, 0.0413897734023868); (0.2384703044248485, 0.0495013121411051); (0.2812732192936831, 0.0414046801061437); (0.3293776682802814, 0.0495038803155726);
   (0.3721821425977067, 0.0414051193748315); (0.4202867083483016, 0.0495039559177712); (0.4602257033904827, 0.0337805227694039); (0.5000000000000000, 0.0447755226407576);
   (0.5397742966095174, 0.0337805227694039); (0.5797132916516985, 0.0495039559177712); (0.6278178574022933, 0.0414051193748315); (0.6706223317197186, 0.0495038803155726);
   (0.7187267807063169, 0.0414046801061437); (0.7615296955751515, 0.0495013121411051); (0.8096301790329991, 0.0413897734023868); (0.8523801709849584, 0.0494141571668572);
   (0.9003471017423145, 0.0409007566774684); (0.9413682750656075, 0.0465896205625838); (0.9859044522071198, 0.0342184602454970)];
  [(0.0129209188101402, 0.0313669218917056); (0.0537457478565265, 0.0427071521823685); (0.0913484900695451, 0.0374923602876794); (0.1353181765971215, 0.0452963107362857);
   (0.1745056692197510, 0.0379406256188546); (0.2185977790561111, 0.0453762027960130); (0.2578337843525428, 0.0379542900972984); (0.3019295292569246, 0.0453785569559415);
   (0.3411669640478978, 0.0379546927602622); (0.3852628159859431, 0.0453786262579569); (0.4245002928585266, 0.0379547046139159); (0.4685961479473724, 0.0453786282980195);
   (0.5000000000000000, 0.0196418550073976); (0.5314038520526275, 0.0453786282980195); (0.5754997071414734, 0.0379547046139159); (0.6147371840140569, 0.0453786262579569);
   (0.6588330359521022, 0.0379546927602622); (0.6980704707430753, 0.0453785569559415); (0.7421662156474571, 0.0379542900972984); (0.7814022209438889, 0.0453762027960130);
   (0.8254943307802490, 0.0379406256188546); (0.8646818234028785, 0.0452963107362857); (0.9086515099304548, 0.0374923602876794); (0.9462542521434735, 0.0427071521823685);
   (0.9870790811898598, 0.0313669218917056)];
  [(0.0119270019785909, 0.0289540817461898); (0.0496114595598706, 0.0394219866298786); (0.0843216831411186, 0.0346083325732425); (0.1249090860896507, 0.0418119791411869);
   (0.1610821562028471, 0.0350221159558658); (0.2017825652825641, 0.0418857256578582); (0.2380004163254242, 0.0350347293205831); (0.2787041808525458, 0.0418878987285614);
   (0.3149233514288288, 0.0350351010094728); (0.3556272147562552, 0.0418879626996525); (0.3918464241771015, 0.0350351119513070); (0.4325502904129592, 0.0418879645827872);
   (0.4663448258542691, 0.0285835196189740); (0.5000000000000000, 0.0378869807688805); (0.5336551741457309, 0.0285835196189740); (0.5674497095870409, 0.0418879645827872);
   (0.6081535758228985, 0.0350351119513070); (0.6443727852437449, 0.0418879626996525); (0.6850766485711712, 0.0350351010094728); (0.7212958191474542, 0.0418878987285614);
   (0.7619995836745759, 0.0350347293205831); (0.7982174347174359, 0.0418857256578582); (0.8389178437971531, 0.0350221159558658); (0.8750909139103494, 0.0418119791411869);
   (0.9156783168588816, 0.0346083325732425); (0.9503885404401294, 0.0394219866298786); (0.9880729980214090, 0.0289540817461898)];
  [(0.0110750732658344, 0.0268859330500334); (0.0460677838770227, 0.0366061304420301); (0.0782987057738958, 0.0321363088180109); (0.1159870085118185, 0.0388254092025306);
   (0.1495762879026437, 0.0325205362447325); (0.1873695249052381, 0.0388938881108683); (0.2210003865878938, 0.0325322486548272); (0.2587967393630782, 0.0388959059622356);
   (0.2924288263267695, 0.0325325937945104); (0.3302252708450941, 0.0388959653639631); (0.3638573938787371, 0.0325326039547850); (0.4016538410977478, 0.0388959671125882);
   (0.4352859651931920, 0.0325326042538759); (0.4730824124917034, 0.0388959671640629); (0.5000000000000000, 0.0168358757418919); (0.5269175875082965, 0.0388959671640629);
   (0.5647140348068080, 0.0325326042538759); (0.5983461589022522, 0.0388959671125882); (0.6361426061212628, 0.0325326039547850); (0.6697747291549059, 0.0388959653639631);
   (0.7075711736732304, 0.0325325937945104); (0.7412032606369217, 0.0388959059622356); (0.7789996134121061, 0.0325322486548272); (0.8126304750947618, 0.0388938881108683);
   (0.8504237120973563, 0.0325205362447325); (0.8840129914881816, 0.0388254092025306); (0.9217012942261041, 0.0321363088180109); (0.9539322161229773, 0.0366061304420301);
   (0.9889249267341654, 0.0268859330500334)];
  [(0.0103367350481121, 0.0250935375133645); (0.0429965982852212, 0.0341657217458948); (0.0730787920556361, 0.0299938882301435); (0.1082545412776972, 0.0362370485890286);
   (0.1396045353758008, 0.0303525004950837); (0.1748782232448889, 0.0363009622368104); (0.2062670274820343, 0.0303634320778387); (0.2415436234055397, 0.0363028455647532);
   (0.2729335712383182, 0.0303637542082097); (0.3082102527887545, 0.0363029010063655); (0.3396002342868213, 0.0303637636911327); (0.3748769183578979, 0.0363029026384156);
   (0.4062669008469791, 0.0303637639702842); (0.4415435849922565, 0.0363029026864587); (0.4708321824046982, 0.0247723836787720); (0.5000000000000000, 0.0328353833348884);
   (0.5291678175953018, 0.0247723836787720); (0.5584564150077435, 0.0363029026864587); (0.5937330991530207, 0.0303637639702842); (0.6251230816421021, 0.0363029026384156);
   (0.6603997657131786, 0.0303637636911327); (0.6917897472112455, 0.0363029010063655); (0.7270664287616817, 0.0303637542082097); (0.7584563765944602, 0.0363028455647532);
   (0.7937329725179657, 0.0303634320778387); (0.8251217767551111, 0.0363009622368104); (0.8603954646241992, 0.0303525004950837); (0.8917454587223028, 0.0362370485890286);
   (0.9269212079443639, 0.0299938882301435); (0.9570034017147788, 0.0341657217458948); (0.9896632649518878, 0.0250935375133645)];
  [(0.0096906891076051, 0.0235251914187792); (0.0403093108923949, 0.0320303641367764); (0.0685113675521588, 0.0281192702157595); (0.1014886324478411, 0.0339722330522143);
   (0.1308792519148133, 0.0284554692141409); (0.1639483342920833, 0.0340321520970098); (0.1933753382644071, 0.0284657175729738); (0.2264471469426935, 0.0340339177169561);
   (0.2558752230359234, 0.0284660195701966); (0.2889471119894573, 0.0340339696934677); (0.3183752196438950, 0.0284660284604369); (0.3514471109605293, 0.0340339712235146);
   (0.3808752195440430, 0.0284660287221414); (0.4139471109302405, 0.0340339712685550); (0.4433752195411036, 0.0284660287298453); (0.4764471109293489, 0.0340339712698809);
   (0.5000000000000000, 0.0147313912747031); (0.5235528890706511, 0.0340339712698809); (0.5566247804588964, 0.0284660287298453); (0.5860528890697595, 0.0340339712685550);
   (0.6191247804559570, 0.0284660287221414); (0.6485528890394707, 0.0340339712235146); (0.6816247803561050, 0.0284660284604369); (0.7110528880105427, 0.0340339696934677);
   (0.7441247769640766, 0.0284660195701966); (0.7735528530573065, 0.0340339177169561); (0.8066246617355929, 0.0284657175729738); (0.8360516657079167, 0.0340321520970098);
   (0.8691207480851868, 0.0284554692141409); (0.8985113675521589, 0.0339722330522143); (0.9314886324478412, 0.0281192702157595); (0.9596906891076051, 0.0320303641367764);
   (0.9903093108923948, 0.0235251914187792)];
  [(0.0091206485718637, 0.0221413566294392); (0.0379381749575481, 0.0301462250699072); (0.0644812871079142, 0.0264651954971855); (0.0955187128920858, 0.0319738664020841);
   (0.1231804723904125, 0.0267816180838974); (0.1543043146278431, 0.0320302607971857); (0.1820003183665008, 0.0267912635980930); (0.2131267265342997, 0.0320319225571352);
   (0.2408237393279279, 0.0267915478307733); (0.2719502230489010, 0.0320319714762049); (0.2996472655471953, 0.0267915561980583); (0.3307737514922629, 0.0320319729162491);
   (0.3584707948649816, 0.0267915564443684); (0.3895972808755205, 0.0320319729586400); (0.4172943242739798, 0.0267915564516191); (0.4484208102864460, 0.0320319729598879);
   (0.4742636903570259, 0.0218579855991501); (0.5000000000000000, 0.0289723970602440); (0.5257363096429740, 0.0218579855991501); (0.5515791897135540, 0.0320319729598879);
   (0.5827056757260202, 0.0267915564516191); (0.6104027191244795, 0.0320319729586400); (0.6415292051350183, 0.0267915564443684); (0.6692262485077372, 0.0320319729162491);
   (0.7003527344528047, 0.0267915561980583); (0.7280497769510990, 0.0320319714762049); (0.7591762606720721, 0.0267915478307733); (0.7868732734657002, 0.0320319225571352);
   (0.8179996816334991, 0.0267912635980930); (0.8456956853721569, 0.0320302607971857); (0.8768195276095876, 0.0267816180838974); (0.9044812871079142, 0.0319738664020841);
   (0.9355187128920858, 0.0264651954971855); (0.9620618250424519, 0.0301462250699072); (0.9908793514281363, 0.0221413566294392)];
  [(0.0086139458734268, 0.0209112812611371); (0.0358304985710177, 0.0284714347882456); (0.0608989933796968, 0.0249949068584529); (0.0902121177314144, 0.0301975404908572);
   (0.1163371128131673, 0.0252937504125697); (0.1457318527040740, 0.0302508018640087); (0.1718891895683619, 0.0253028600648656); (0.2012863528379497, 0.0302523713039610);
   (0.2274446426985985, 0.0253031285068414); (0.2568418773239621, 0.0302524175053046); (0.2830001952390178, 0.0253031364092773); (0.3123974319649149, 0.0302524188653463);
   (0.3385557507058159, 0.0253031366419035); (0.3679529874935471, 0.0302524189053822); (0.3941113062587587, 0.0253031366487513); (0.4235085430483101, 0.0302524189065608);
   (0.4496668618142374, 0.0253031366489529); (0.4790640986038424, 0.0302524189065955); (0.5000000000000000, 0.0130945700219727); (0.5209359013961576, 0.0302524189065955);
   (0.5503331381857626, 0.0253031366489529); (0.5764914569516898, 0.0302524189065608); (0.6058886937412412, 0.0253031366487513); (0.6320470125064529, 0.0302524189053822);
   (0.6614442492941840, 0.0253031366419035); (0.6876025680350850, 0.0302524188653463); (0.7169998047609821, 0.0253031364092773); (0.7431581226760379, 0.0302524175053046);
   (0.7725553573014015, 0.0253031285068414); (0.7987136471620502, 0.0302523713039610); (0.8281108104316380, 0.0253028600648656); (0.8542681472959259, 0.0302508018640087);
   (0.8836628871868326, 0.0252937504125697); (0.9097878822685855, 0.0301975404908572); (0.9391010066203032, 0.0249949068584529); (0.9641695014289823, 0.0284714347882456);
   (0.9913860541265731, 0.0209112812611371)];
  [(0.0081605803011412, 0.0198106875105509); (0.0339446828567536, 0.0269729382204432); (0.0576937832018180, 0.0236793854448501); (0.0854641115350241, 0.0286081962544963);
   (0.1102141068756322, 0.0239625003908555); (0.1380617551933333, 0.0286586543974819); (0.1628423901173955, 0.0239711305877674); (0.1906923342675313, 0.0286601412353315);
   (0.2154738720302512, 0.0239713849012182); (0.2433238837805956, 0.0286601850050254); (0.2681054481211747, 0.0239713923877364); (0.2959554618614983, 0.0286601862934860);
   (0.3207370269844572, 0.0239713926081191); (0.3485870407833604, 0.0286601863314147); (0.3733686059293504, 0.0239713926146065); (0.4012186197299780, 0.0286601863325313);
   (0.4260001848766460, 0.0239713926147975); (0.4538501986773243, 0.0286601863325641); (0.4769727755826005, 0.0195571450097720); (0.5000000000000000, 0.0259226710539038);
   (0.5230272244173994, 0.0195571450097720); (0.5461498013226757, 0.0286601863325641); (0.5739998151233540, 0.0239713926147975); (0.5987813802700219, 0.0286601863325313);
   (0.6266313940706496, 0.0239713926146065); (0.6514129592166396, 0.0286601863314147); (0.6792629730155427, 0.0239713926081191); (0.7040445381385017, 0.0286601862934860);
   (0.7318945518788252, 0.0239713923877364); (0.7566761162194043, 0.0286601850050254); (0.7845261279697487, 0.0239713849012182); (0.8093076657324686, 0.0286601412353315);
   (0.8371576098826045, 0.0239711305877674); (0.8619382448066666, 0.0286586543974819); (0.8897858931243677, 0.0239625003908555); (0.9145358884649758, 0.0286081962544963);
   (0.9423062167981819, 0.0236793854448501); (0.9660553171432463, 0.0269729382204432); (0.9918394196988587, 0.0198106875105509)];
  [(0.0077525512860841, 0.0188201531350234); (0.0322474487139159, 0.0256242913094211); (0.0548090940417271, 0.0224954161726076); (0.0811909059582729, 0.0271777864417715);
   (0.1047034015318506, 0.0227643753713128); (0.1311586674336666, 0.0272257216776078); (0.1547002706115257, 0.0227725740583790); (0.1811577175541548, 0.0272271341735649);
   (0.2047001784287387, 0.0227728156561573); (0.2311576895915659, 0.0272271757547741); (0.2547001757151160, 0.0227728227683495); (0.2811576887684235, 0.0272271769788117);
   (0.3047001756352344, 0.0227728229777131); (0.3311576887441924, 0.0272271770148440); (0.3547001756328829, 0.0227728229838762); (0.3811576887434791, 0.0272271770159047);
   (0.4047001756328137, 0.0227728229840576); (0.4311576887434582, 0.0272271770159359); (0.4547001756328117, 0.0227728229840630); (0.4811576887434575, 0.0272271770159368);
   (0.5000000000000000, 0.0117851130197758); (0.5188423112565425, 0.0272271770159368); (0.5452998243671884, 0.0227728229840630); (0.5688423112565418, 0.0272271770159359);
   (0.5952998243671863, 0.0227728229840576); (0.6188423112565209, 0.0272271770159047); (0.6452998243671172, 0.0227728229838762); (0.6688423112558076, 0.0272271770148440);
   (0.6952998243647657, 0.0227728229777131); (0.7188423112315766, 0.0272271769788117); (0.7452998242848841, 0.0227728227683495); (0.7688423104084342, 0.0272271757547741);
   (0.7952998215712613, 0.0227728156561573); (0.8188422824458453, 0.0272271341735649); (0.8452997293884744, 0.0227725740583790); (0.8688413325663333, 0.0272257216776078);
   (0.8952965984681495, 0.0227643753713128); (0.9188090940417271, 0.0271777864417715); (0.9451909059582729, 0.0224954161726076); (0.9677525512860842, 0.0256242913094211);
   (0.9922474487139159, 0.0188201531350234)];
  [(0.0073833821772230, 0.0179239553666889); (0.0307118559180151, 0.0244040869613534); (0.0521991371825972, 0.0214242058786739); (0.0773246723412123, 0.0258836061350204);
   (0.0997175252684291, 0.0216803574964883); (0.1249130166034920, 0.0259292587405789); (0.1473335910585959, 0.0216881657698848); (0.1725311595753855, 0.0259306039748237);
   (0.1949525508845130, 0.0216883958630070); (0.2201501805633961, 0.0259306435759754); (0.2425715959191581, 0.0216884026365234); (0.2677692273984985, 0.0259306447417254);
   (0.2901906434621280, 0.0216884028359173); (0.3153882749944689, 0.0259306447760419); (0.3378096910789360, 0.0216884028417869); (0.3630073226128372, 0.0259306447770521);
   (0.3854287386979178, 0.0216884028419596); (0.4106263702318649, 0.0259306447770818); (0.4330477863169634, 0.0216884028419647); (0.4582454178509119, 0.0259306447770827);
   (0.4791658445747338, 0.0176945597707463); (0.5000000000000000, 0.0234538452392463); (0.5208341554252661, 0.0176945597707463); (0.5417545821490880, 0.0259306447770827);
   (0.5669522136830365, 0.0216884028419647); (0.5893736297681351, 0.0259306447770818); (0.6145712613020822, 0.0216884028419596); (0.6369926773871627, 0.0259306447770521);
   (0.6621903089210639, 0.0216884028417869); (0.6846117250055310, 0.0259306447760419); (0.7098093565378719, 0.0216884028359173); (0.7322307726015015, 0.0259306447417254);
   (0.7574284040808419, 0.0216884026365234); (0.7798498194366039, 0.0259306435759754); (0.8050474491154869, 0.0216883958630070); (0.8274688404246145, 0.0259306039748237);
   (0.8526664089414041, 0.0216881657698848); (0.8750869833965079, 0.0259292587405789); (0.9002824747315709, 0.0216803574964883); (0.9226753276587876, 0.0258836061350204);
   (0.9478008628174027, 0.0214242058786739); (0.9692881440819848, 0.0244040869613534); (0.9926166178227770, 0.0179239553666889)];
  [(0.0070477738964401, 0.0171092301227485); (0.0293158624671963, 0.0232948102812919); (0.0498264491288428, 0.0204503783387342); (0.0738099145075208, 0.0247070785834286);
   (0.0951849104835006, 0.0206948867011934); (0.1192351522124242, 0.0247506560705526); (0.1406366096468415, 0.0207023400530718); (0.1646888341401407, 0.0247519401577863);
   (0.1860910712988534, 0.0207025596874157); (0.2101433541741508, 0.0247519779588856); (0.2315456142864691, 0.0207025661530450); (0.2555978988803850, 0.0247519790716470);
   (0.2770001596683949, 0.0207025663433756); (0.3010524443129022, 0.0247519791044036); (0.3224547051208026, 0.0207025663489784); (0.3465069897667992, 0.0247519791053679);
   (0.3679092505752852, 0.0207025663491433); (0.3919615352213256, 0.0247519791053963); (0.4133637960298288, 0.0207025663491482); (0.4374160806758705, 0.0247519791053971);
   (0.4588183414843742, 0.0207025663491483); (0.4828706261304159, 0.0247519791053972); (0.5000000000000000, 0.0107137391088871); (0.5171293738695841, 0.0247519791053972);
   (0.5411816585156258, 0.0207025663491483); (0.5625839193241295, 0.0247519791053971); (0.5866362039701712, 0.0207025663491482); (0.6080384647786744, 0.0247519791053963);
   (0.6320907494247149, 0.0207025663491433); (0.6534930102332008, 0.0247519791053679); (0.6775452948791975, 0.0207025663489784); (0.6989475556870979, 0.0247519791044036);
   (0.7229998403316051, 0.0207025663433756); (0.7444021011196151, 0.0247519790716470); (0.7684543857135310, 0.0207025661530450); (0.7898566458258492, 0.0247519779588856);
   (0.8139089287011466, 0.0207025596874157); (0.8353111658598593, 0.0247519401577863); (0.8593633903531586, 0.0207023400530718); (0.8807648477875758, 0.0247506560705526);
   (0.9048150895164995, 0.0206948867011934); (0.9261900854924792, 0.0247070785834286); (0.9501735508711572, 0.0204503783387342); (0.9706841375328038, 0.0232948102812919);
   (0.9929522261035599, 0.0171092301227485)];
  [(0.0067413489444210, 0.0163653505521942); (0.0280412597512312, 0.0222819924429749); (0.0476600817754149, 0.0195612314544414); (0.0706007877898025, 0.0236328577754534);
   (0.0910464361146527, 0.0197951090185328); (0.1140510151597101, 0.0236745405892242); (0.1345219744448050, 0.0198022383116339); (0.1575284500470911, 0.0236757688465782);
   (0.1780001551554249, 0.0198024483966585); (0.2010066866013616, 0.0236758050041514); (0.2214784136653182, 0.0198024545811735); (0.2444849467551508, 0.0236758060685319);
   (0.2649566744654212, 0.0198024547632288); (0.2879632076036456, 0.0236758060998644); (0.3084349353329416, 0.0198024547685880); (0.3314414684725905, 0.0236758061007867);
   (0.3519131962024467, 0.0198024547687458); (0.3749197293421375, 0.0236758061008138); (0.3953914570720101, 0.0198024547687504); (0.4183979902117022, 0.0236758061008146);
   (0.4388697179415753, 0.0198024547687505); (0.4618762510812673, 0.0236758061008147); (0.4809775102638874, 0.0161559023993770); (0.5000000000000000, 0.0214143804358336);
   (0.5190224897361125, 0.0161559023993770); (0.5381237489187326, 0.0236758061008147); (0.5611302820584247, 0.0198024547687505); (0.5816020097882978, 0.0236758061008146);
   (0.6046085429279898, 0.0198024547687504); (0.6250802706578624, 0.0236758061008138); (0.6480868037975533, 0.0198024547687458); (0.6685585315274094, 0.0236758061007867);
   (0.6915650646670584, 0.0198024547685880); (0.7120367923963543, 0.0236758060998644); (0.7350433255345787, 0.0198024547632288); (0.7555150532448491, 0.0236758060685319);
   (0.7785215863346818, 0.0198024545811735); (0.7989933133986383, 0.0236758050041514); (0.8219998448445750, 0.0198024483966585); (0.8424715499529090, 0.0236757688465782);
   (0.8654780255551952, 0.0198022383116339); (0.8859489848402898, 0.0236745405892242); (0.9089535638853473, 0.0197951090185328); (0.9293992122101974, 0.0236328577754534);
   (0.9523399182245851, 0.0195612314544414); (0.9719587402487687, 0.0222819924429749); (0.9932586510555790, 0.0163653505521942)];
  [(0.0064604594050701, 0.0156834609458528); (0.0268728739282632, 0.0213535760911842); (0.0456742450347726, 0.0187461801438397); (0.0676590882985608, 0.0226481553681429);
   (0.0872528346098755, 0.0189703128094273); (0.1092988895280555, 0.0226881013980065); (0.1289168921762714, 0.0189771450486492); (0.1509647646284623, 0.0226892784779708);
   (0.1705834820239489, 0.0189773463801311); (0.1926314079929715, 0.0226893131289784); (0.2122501464292633, 0.0189773523069579); (0.2342980739736862, 0.0226893141490098);
   (0.2539168130293620, 0.0189773524814276); (0.2759647406201603, 0.0226893141790367); (0.2955834796940691, 0.0189773524865635); (0.3176314072862326, 0.0226893141799206);
   (0.3372501463606781, 0.0189773524867147); (0.3592980739528818, 0.0226893141799466); (0.3789168130273430, 0.0189773524867191); (0.4009647406195479, 0.0226893141799474);
   (0.4205834796940096, 0.0189773524867193); (0.4426314072862145, 0.0226893141799474); (0.4622501463606763, 0.0189773524867193); (0.4842980739528812, 0.0226893141799474);
   (0.5000000000000000, 0.0098209275164798); (0.5157019260471187, 0.0226893141799474); (0.5377498536393237, 0.0189773524867193); (0.5573685927137855, 0.0226893141799474);
   (0.5794165203059903, 0.0189773524867193); (0.5990352593804520, 0.0226893141799474); (0.6210831869726570, 0.0189773524867191); (0.6407019260471182, 0.0226893141799466);
   (0.6627498536393219, 0.0189773524867147); (0.6823685927137674, 0.0226893141799206); (0.7044165203059309, 0.0189773524865635); (0.7240352593798396, 0.0226893141790367);
   (0.7460831869706379, 0.0189773524814276); (0.7657019260263138, 0.0226893141490098); (0.7877498535707367, 0.0189773523069579); (0.8073685920070284, 0.0226893131289784);
   (0.8294165179760511, 0.0189773463801311); (0.8490352353715377, 0.0226892784779708); (0.8710831078237287, 0.0189771450486492); (0.8907011104719444, 0.0226881013980065);
   (0.9127471653901245, 0.0189703128094273); (0.9323409117014392, 0.0226481553681429); (0.9543257549652273, 0.0187461801438397); (0.9731271260717367, 0.0213535760911842);
   (0.9935395405949299, 0.0156834609458528)]].
(** precomputed_ggq_rules_optimal.cpp:1033-1929 *)
Definition S_6_1_precomputed : list (list (Q * Q)) := [
  [(0.0694318442029737, 0.1739274225687269); (0.3300094782075719, 0.3260725774312730); (0.6699905217924281, 0.3260725774312730); (0.9305681557970263, 0.1739274225687269)];
  [(0.0462127372182612, 0.1150241814446771); (0.2137978506000211, 0.2030726134378335); (0.4139622006490060, 0.1819032051174894); (0.5860377993509940, 0.1819032051174894);
   (0.7862021493999789, 0.2030726134378335); (0.9537872627817388, 0.1150241814446771)];
  [(0.0306423766079998, 0.0762667453743213); (0.1417348466515933, 0.1345679076478470); (0.2739711272863798, 0.1186184408026074); (0.3797791396339815, 0.1060634927755797);
   (0.5000000000000000, 0.1289668267992890); (0.6202208603660184, 0.1060634927755797); (0.7260288727136200, 0.1186184408026074); (0.8582651533484067, 0.1345679076478470);
   (0.9693576233920000, 0.0762667453743213)];
  [(0.0231519196841173, 0.0576262174788035); (0.1071179944020355, 0.1017610404441355); (0.2075473388575357, 0.0917787911867928); (0.2966104521142016, 0.0965128286617327);
   (0.4034750061372308, 0.1088048830347572); (0.5000000000000000, 0.0870324783875567); (0.5965249938627691, 0.1088048830347572); (0.7033895478857983, 0.0965128286617327);
   (0.7924526611424643, 0.0917787911867928); (0.8928820055979645, 0.1017610404441355); (0.9768480803158828, 0.0576262174788035)];
  [(0.0185201737657345, 0.0460975612828112); (0.0856878416976785, 0.0814021014373373); (0.1660208077562081, 0.0733974530795521); (0.2371780935837472, 0.0770397831180382);
   (0.3224625190026733, 0.0868222322094081); (0.3974843745994350, 0.0626482762802605); (0.4622035526990773, 0.0725925925925926); (0.5377964473009227, 0.0725925925925926);
   (0.6025156254005651, 0.0626482762802605); (0.6775374809973268, 0.0868222322094081); (0.7628219064162529, 0.0770397831180382); (0.8339791922437920, 0.0733974530795521);
   (0.9143121583023215, 0.0814021014373373); (0.9814798262342657, 0.0460975612828112)];
  [(0.0154346131227448, 0.0384174783192023); (0.0714119962680237, 0.0678406936294236); (0.1383648925716905, 0.0611858607911952); (0.1977403014094677, 0.0643418857744885);
   (0.2689833374248205, 0.0725365886898381); (0.3333514524373840, 0.0580824298260580); (0.3978226169709807, 0.0727038340500323); (0.4693125907226672, 0.0648912289197620);
   (0.5306874092773328, 0.0648912289197620); (0.6021773830290192, 0.0727038340500323); (0.6666485475626160, 0.0580824298260580); (0.7310166625751795, 0.0725365886898381);
   (0.8022596985905321, 0.0643418857744885); (0.8616351074283095, 0.0611858607911952); (0.9285880037319763, 0.0678406936294236); (0.9845653868772551, 0.0384174783192023)];
  [(0.0132296677518221, 0.0329292655293495); (0.0612102794400397, 0.0581491628094296); (0.1185984713378604, 0.0524450115162926); (0.1694916352449028, 0.0551501081725067);
   (0.2305569993507098, 0.0621741200220251); (0.2856723453320721, 0.0495927100144926); (0.3405503853902448, 0.0617902164945780); (0.4010701866346901, 0.0540278760702763);
   (0.4482182193017979, 0.0460015896897677); (0.5000000000000000, 0.0554798793625636); (0.5517817806982021, 0.0460015896897677); (0.5989298133653098, 0.0540278760702763);
   (0.6594496146097552, 0.0617902164945780); (0.7143276546679279, 0.0495927100144926); (0.7694430006492901, 0.0621741200220251); (0.8305083647550970, 0.0551501081725067);
   (0.8814015286621396, 0.0524450115162926); (0.9387897205599604, 0.0581491628094296); (0.9867703322481778, 0.0329292655293495)];
  [(0.0115759598420586, 0.0288131087394017); (0.0535589972010178, 0.0508805202220677); (0.1037736694287679, 0.0458893955933964); (0.1483052260571008, 0.0482564143308664);
   (0.2017375030686154, 0.0544024415173786); (0.2500135893738485, 0.0435618225231589); (0.2983669630803519, 0.0545278759606478); (0.3519844440254407, 0.0486684231248840);
   (0.3980155631318324, 0.0486684312305825); (0.4516330549084164, 0.0545278874185805); (0.5000000000000000, 0.0436073586780709); (0.5483669450915836, 0.0545278874185805);
   (0.6019844368681676, 0.0486684312305825); (0.6480155559745593, 0.0486684231248840); (0.7016330369196482, 0.0545278759606478); (0.7499864106261515, 0.0435618225231589);
   (0.7982624969313846, 0.0544024415173786); (0.8516947739428992, 0.0482564143308664); (0.8962263305712321, 0.0458893955933964); (0.9464410027989822, 0.0508805202220677);
   (0.9884240401579414, 0.0288131087394017)];
  [(0.0102897420818299, 0.0256116522128015); (0.0476079975120158, 0.0452271290862824); (0.0922432617144603, 0.0407905738607968); (0.1318268676063118, 0.0428945905163257);
   (0.1793222249498803, 0.0483577257932254); (0.2222338424086770, 0.0387200799877305); (0.2652115482642370, 0.0484649813091319); (0.3128652049029556, 0.0432464518539011);
   (0.3537296337179309, 0.0431647263390327); (0.4012723536190940, 0.0483437324574268); (0.4430324394687575, 0.0348491384763493); (0.4790019737217096, 0.0403292181069959);
   (0.5209980262782904, 0.0403292181069959); (0.5569675605312424, 0.0348491384763493); (0.5987276463809060, 0.0483437324574268); (0.6462703662820691, 0.0431647263390327);
   (0.6871347950970443, 0.0432464518539011); (0.7347884517357629, 0.0484649813091319); (0.7777661575913229, 0.0387200799877305); (0.8206777750501196, 0.0483577257932254);
   (0.8681731323936881, 0.0428945905163257); (0.9077567382855396, 0.0407905738607968); (0.9523920024879842, 0.0452271290862824); (0.9897102579181700, 0.0256116522128015)];
  [(0.0092607678736469, 0.0230504869915214); (0.0428471977608142, 0.0407044161776542); (0.0830189355430143, 0.0367115164747171); (0.1186441808456807, 0.0386051314646931);
   (0.1613900024548923, 0.0435219532139029); (0.2000108714990788, 0.0348494580185272); (0.2386935704642815, 0.0436223007685183); (0.2815875552203526, 0.0389347384999072);
   (0.3184124505054660, 0.0389347449844660); (0.3613064439267332, 0.0436223099348644); (0.4000000000365804, 0.0348858870652238); (0.4386935563548670, 0.0436223102734296);
   (0.4815875502812585, 0.0389347461325750); (0.5184124497187416, 0.0389347461325750); (0.5613064436451330, 0.0436223102734296); (0.5999999999634196, 0.0348858870652238);
   (0.6386935560732669, 0.0436223099348644); (0.6815875494945342, 0.0389347449844660); (0.7184124447796475, 0.0389347384999072); (0.7613064295357186, 0.0436223007685183);
   (0.7999891285009212, 0.0348494580185272); (0.8386099975451077, 0.0435219532139029); (0.8813558191543195, 0.0386051314646931); (0.9169810644569858, 0.0367115164747171);
   (0.9571528022391859, 0.0407044161776542); (0.9907392321263532, 0.0230504869915214)];
  [(0.0084188798851335, 0.0209549881741104); (0.0389519979643766, 0.0370040147069584); (0.0754717595845585, 0.0333741058861065); (0.1078583462233460, 0.0350955740588119);
   (0.1467181840499021, 0.0395654120126390); (0.1818280645439954, 0.0316813239450883); (0.2169941514689534, 0.0396566328581962); (0.2559886767926434, 0.0353952025595501);
   (0.2894658027490103, 0.0353951279003377); (0.3284602282526184, 0.0396565271434928); (0.3635997413879372, 0.0315922404318610); (0.3985320634301558, 0.0393210468601860);
   (0.4370446642220756, 0.0343813756810849); (0.4670479577375078, 0.0292737388934886); (0.5000000000000000, 0.0353053777761769); (0.5329520422624923, 0.0292737388934886);
   (0.5629553357779244, 0.0343813756810849); (0.6014679365698442, 0.0393210468601860); (0.6364002586120630, 0.0315922404318610); (0.6715397717473816, 0.0396565271434928);
   (0.7105341972509897, 0.0353951279003377); (0.7440113232073566, 0.0353952025595501); (0.7830058485310466, 0.0396566328581962); (0.8181719354560045, 0.0316813239450883);
   (0.8532818159500979, 0.0395654120126390); (0.8921416537766540, 0.0350955740588119); (0.9245282404154416, 0.0333741058861065); (0.9610480020356235, 0.0370040147069584);
   (0.9915811201148665, 0.0209549881741104)];
  [(0.0077173065613724, 0.0192087391596012); (0.0357059981340118, 0.0339203468147118); (0.0691824462858452, 0.0305929303955976); (0.0988701507047339, 0.0321709428872442);
   (0.1344916687124103, 0.0362682943449191); (0.1666757262492324, 0.0290412150154393); (0.1989113087202346, 0.0363519173070986); (0.2346562960169605, 0.0324456154165893);
   (0.2653437087545549, 0.0324456208203883); (0.3010887032722776, 0.0363519249457203); (0.3333333333638170, 0.0290715725543532); (0.3655779636290558, 0.0363519252278580);
   (0.4013229585677154, 0.0324456217771458); (0.4320103747656179, 0.0324456217771458); (0.4677553697042776, 0.0363519252278580); (0.5000000000000000, 0.0290715726566590);
   (0.5322446302957224, 0.0363519252278580); (0.5679896252343820, 0.0324456217771458); (0.5986770414322846, 0.0324456217771458); (0.6344220363709442, 0.0363519252278580);
   (0.6666666666361829, 0.0290715725543532); (0.6989112967277223, 0.0363519249457203); (0.7346562912454451, 0.0324456208203883); (0.7653437039830395, 0.0324456154165893);
   (0.8010886912797655, 0.0363519173070986); (0.8333242737507677, 0.0290412150154393); (0.8655083312875896, 0.0362682943449191); (0.9011298492952662, 0.0321709428872442);
   (0.9308175537141548, 0.0305929303955976); (0.9642940018659881, 0.0339203468147118); (0.9922826934386275, 0.0192087391596012)];
  [(0.0071236675951130, 0.0177311438396318); (0.0329593828929340, 0.0313110893674263); (0.0638607196484725, 0.0282396280574747); (0.0912647544966774, 0.0296962549728408);
   (0.1241461557345326, 0.0334784255491561); (0.1538545165377123, 0.0268072753987307); (0.1836104388183655, 0.0335556159754076); (0.2166058117070905, 0.0299497988448084);
   (0.2449326542294928, 0.0299498038257349); (0.2779280337741395, 0.0335556230162773); (0.3076919903431011, 0.0268342326603552); (0.3374541387525929, 0.0335526861342113);
   (0.3704451383384104, 0.0299398567176437); (0.3987358997045836, 0.0298832728953386); (0.4316500907603621, 0.0334687380911011); (0.4605609196010448, 0.0241263267336335);
   (0.4854629048842605, 0.0279202279202279); (0.5145370951157395, 0.0279202279202279); (0.5394390803989553, 0.0241263267336335); (0.5683499092396379, 0.0334687380911011);
   (0.6012641002954165, 0.0298832728953386); (0.6295548616615898, 0.0299398567176437); (0.6625458612474071, 0.0335526861342113); (0.6923080096568990, 0.0268342326603552);
   (0.7220719662258605, 0.0335556230162773); (0.7550673457705072, 0.0299498038257349); (0.7833941882929096, 0.0299497988448084); (0.8163895611816346, 0.0335556159754076);
   (0.8461454834622878, 0.0268072753987307); (0.8758538442654674, 0.0334784255491561); (0.9087352455033226, 0.0296962549728408); (0.9361392803515275, 0.0282396280574747);
   (0.9670406171070660, 0.0313110893674263); (0.9928763324048870, 0.0177311438396318)];
  [(0.0066148341954621, 0.0164646335653724); (0.0306051412577244, 0.0290745829840387); (0.0592992396735816, 0.0262225117676551); (0.0847458434612005, 0.0275750939033522);
   (0.1152785731820659, 0.0310871094385020); (0.1428649082136277, 0.0248924700132337); (0.1704954074744868, 0.0311587862632273); (0.2011339680145375, 0.0278105274999337);
   (0.2274374646467613, 0.0278105321317614); (0.2580760313762380, 0.0311587928106174); (0.2857142857404146, 0.0249184907608741); (0.3133525402534764, 0.0311587930524497);
   (0.3439911073437560, 0.0278105329518393); (0.3702946069419582, 0.0278105329518393); (0.4009331740322379, 0.0311587930524497); (0.4285714285714285, 0.0249184908485649);
   (0.4562096831106192, 0.0311587930524497); (0.4868482502008989, 0.0278105329518393); (0.5131517497991011, 0.0278105329518393); (0.5437903168893807, 0.0311587930524497);
   (0.5714285714285714, 0.0249184908485649); (0.5990668259677620, 0.0311587930524497); (0.6297053930580417, 0.0278105329518393); (0.6560088926562440, 0.0278105329518393);
   (0.6866474597465236, 0.0311587930524497); (0.7142857142595853, 0.0249184907608741); (0.7419239686237620, 0.0311587928106174); (0.7725625353532386, 0.0278105321317614);
   (0.7988660319854624, 0.0278105274999337); (0.8295045925255132, 0.0311587862632273); (0.8571350917863723, 0.0248924700132337); (0.8847214268179340, 0.0310871094385020);
   (0.9152541565387995, 0.0275750939033522); (0.9407007603264184, 0.0262225117676551); (0.9693948587422755, 0.0290745829840387); (0.9933851658045378, 0.0164646335653724)];
  [(0.0061738452490979, 0.0153669913276809); (0.0285647985072095, 0.0271362774517695); (0.0553459570286762, 0.0244743443164781); (0.0790961205637871, 0.0257367543097954);
   (0.1075933349699282, 0.0290146354759352); (0.1333405809993859, 0.0232329720123514); (0.1591290469761877, 0.0290815338456788); (0.1877250368135684, 0.0259564923332715);
   (0.2122749670036439, 0.0259564966563106); (0.2408709626178221, 0.0290815399565762); (0.2666666663578855, 0.0232572569253427); (0.2924623683384825, 0.0290815370986960);
   (0.3210583596888313, 0.0259564869649625); (0.3456082548247587, 0.0259564278921244); (0.3742041671973044, 0.0290814534640927); (0.3999731436599342, 0.0231676430655122);
   (0.4255901798487809, 0.0288354343641364); (0.4538327537628554, 0.0252130088327956); (0.4758351690075057, 0.0214674085218916); (0.5000000000000000, 0.0258906103691964);
   (0.5241648309924942, 0.0214674085218916); (0.5461672462371446, 0.0252130088327956); (0.5744098201512191, 0.0288354343641364); (0.6000268563400658, 0.0231676430655122);
   (0.6257958328026957, 0.0290814534640927); (0.6543917451752413, 0.0259564278921244); (0.6789416403111688, 0.0259564869649625); (0.7075376316615175, 0.0290815370986960);
   (0.7333333336421145, 0.0232572569253427); (0.7591290373821779, 0.0290815399565762); (0.7877250329963561, 0.0259564966563106); (0.8122749631864316, 0.0259564923332715);
   (0.8408709530238123, 0.0290815338456788); (0.8666594190006141, 0.0232329720123514); (0.8924066650300717, 0.0290146354759352); (0.9209038794362129, 0.0257367543097954);
   (0.9446540429713238, 0.0244743443164781); (0.9714352014927905, 0.0271362774517695); (0.9938261547509021, 0.0153669913276809)];
  [(0.0057879799210293, 0.0144065543697009); (0.0267794986005089, 0.0254402601110339); (0.0518868347143839, 0.0229446977966982); (0.0741526130285504, 0.0241282071654332);
   (0.1008687515343077, 0.0272012207586893); (0.1250067946869243, 0.0217809112615795); (0.1491834815401759, 0.0272639379803239); (0.1759922220127204, 0.0243342115624420);
   (0.1990077815659162, 0.0243342156152912); (0.2258165274542082, 0.0272639437092902); (0.2500000000228628, 0.0218036794157649); (0.2741834727217918, 0.0272639439208935);
   (0.3009922189257865, 0.0243342163328594); (0.3240077810742135, 0.0243342163328594); (0.3508165272782082, 0.0272639439208935); (0.3750000000000000, 0.0218036794924943);
   (0.3991834727217918, 0.0272639439208935); (0.4259922189257865, 0.0243342163328594); (0.4490077810742135, 0.0243342163328594); (0.4758165272782082, 0.0272639439208935);
   (0.5000000000000000, 0.0218036794924943); (0.5241834727217918, 0.0272639439208935); (0.5509922189257865, 0.0243342163328594); (0.5740077810742135, 0.0243342163328594);
   (0.6008165272782082, 0.0272639439208935); (0.6250000000000000, 0.0218036794924943); (0.6491834727217918, 0.0272639439208935); (0.6759922189257865, 0.0243342163328594);
   (0.6990077810742135, 0.0243342163328594); (0.7258165272782082, 0.0272639439208935); (0.7499999999771372, 0.0218036794157649); (0.7741834725457918, 0.0272639437092902);
   (0.8009922184340839, 0.0243342156152912); (0.8240077779872796, 0.0243342115624420); (0.8508165184598241, 0.0272639379803239); (0.8749932053130758, 0.0217809112615795);
   (0.8991312484656923, 0.0272012207586893); (0.9258473869714496, 0.0241282071654332); (0.9481131652856161, 0.0229446977966982); (0.9732205013994911, 0.0254402601110339);
   (0.9942120200789707, 0.0144065543697009)];
  [(0.0054475105139099, 0.0135591099950126); (0.0252042339769495, 0.0239437742221495); (0.0488346679664790, 0.0215950096910101); (0.0697906946151063, 0.0227089008615842);
   (0.0949352955617014, 0.0256011489493546); (0.1176534538229875, 0.0204996811873689); (0.1404079826260480, 0.0256601769226578); (0.1656397383649133, 0.0229027873528866);
   (0.1873014414738035, 0.0229027911673329); (0.2125332023098430, 0.0256601823146261); (0.2352941176685457, 0.0205211100382627); (0.2580550331496827, 0.0256601825134947);
   (0.2832867942824255, 0.0229027918417167); (0.3049484998303618, 0.0229027918362132); (0.3301802609557516, 0.0256601825057196); (0.3529409337702637, 0.0205202956360198);
   (0.3757002237519828, 0.0256579364555734); (0.4009286351999609, 0.0228951845487864); (0.4225627468329168, 0.0228519145670236); (0.4477324223461593, 0.0255937408931950);
   (0.4698407032243284, 0.0184495439727785); (0.4888833978526698, 0.0213507625272331); (0.5111166021473302, 0.0213507625272331); (0.5301592967756716, 0.0184495439727785);
   (0.5522675776538407, 0.0255937408931950); (0.5774372531670832, 0.0228519145670236); (0.5990713648000392, 0.0228951845487864); (0.6242997762480171, 0.0256579364555734);
   (0.6470590662297363, 0.0205202956360198); (0.6698197390442484, 0.0256601825057196); (0.6950515001696382, 0.0229027918362132); (0.7167132057175745, 0.0229027918417167);
   (0.7419449668503173, 0.0256601825134947); (0.7647058823314543, 0.0205211100382627); (0.7874667976901569, 0.0256601823146261); (0.8126985585261965, 0.0229027911673329);
   (0.8343602616350867, 0.0229027873528866); (0.8595920173739521, 0.0256601769226578); (0.8823465461770124, 0.0204996811873689); (0.9050647044382986, 0.0256011489493546);
   (0.9302093053848938, 0.0227089008615842); (0.9511653320335209, 0.0215950096910101); (0.9747957660230504, 0.0239437742221495); (0.9945524894860900, 0.0135591099950126)];
  [(0.0051448710409149, 0.0128058261064008); (0.0238039987560079, 0.0226135645431412); (0.0461216308572302, 0.0203952869303984); (0.0659134338031559, 0.0214472952581628);
   (0.0896611124749402, 0.0241788628966127); (0.1111171508328216, 0.0193608100102929); (0.1326075391468231, 0.0242346115380657); (0.1564375306779736, 0.0216304102777262);
   (0.1768958058363699, 0.0216304138802589); (0.2007258021815184, 0.0242346166304802); (0.2222222222425447, 0.0193810483695688); (0.2437186424193705, 0.0242346168185720);
   (0.2675486390451436, 0.0216304145180972); (0.2880069165104119, 0.0216304145180972); (0.3118369131361850, 0.0242346168185720); (0.3333333333333333, 0.0193810484377727);
   (0.3548297535304816, 0.0242346168185720); (0.3786597501562547, 0.0216304145180972); (0.3991180276215230, 0.0216304145180972); (0.4229480242472961, 0.0242346168185720);
   (0.4444444444444444, 0.0193810484377727); (0.4659408646415927, 0.0242346168185720); (0.4897708612673658, 0.0216304145180972); (0.5102291387326342, 0.0216304145180972);
   (0.5340591353584073, 0.0242346168185720); (0.5555555555555556, 0.0193810484377727); (0.5770519757527037, 0.0242346168185720); (0.6008819723784768, 0.0216304145180972);
   (0.6213402498437453, 0.0216304145180972); (0.6451702464695184, 0.0242346168185720); (0.6666666666666666, 0.0193810484377727); (0.6881630868638149, 0.0242346168185720);
   (0.7119930834895880, 0.0216304145180972); (0.7324513609548564, 0.0216304145180972); (0.7562813575806295, 0.0242346168185720); (0.7777777777574553, 0.0193810483695688);
   (0.7992741978184815, 0.0242346166304802); (0.8231041941636300, 0.0216304138802589); (0.8435624693220263, 0.0216304102777262); (0.8673924608531769, 0.0242346115380657);
   (0.8888828491671784, 0.0193608100102929); (0.9103388875250599, 0.0241788628966127); (0.9340865661968440, 0.0214472952581628); (0.9538783691427698, 0.0203952869303984);
   (0.9761960012439920, 0.0226135645431412); (0.9948551289590849, 0.0128058261064008)];
  [(0.0048740883545510, 0.0121318352586955); (0.0225511567162180, 0.0214233769356075); (0.0436941766015865, 0.0193218507761669); (0.0624443057082530, 0.0203184902445753);
   (0.0849421065552065, 0.0229062911652120); (0.1052688797363573, 0.0183418200097511); (0.1256281949812008, 0.0229591056676412); (0.1482039764317645, 0.0204919676315301);
   (0.1675855002660347, 0.0204919710444558); (0.1901612862772279, 0.0229591104920339); (0.2105263158087265, 0.0183609931922230); (0.2308913454499300, 0.0229591106702261);
   (0.2534671317269781, 0.0204919716487237); (0.2728486577467060, 0.0204919716487237); (0.2954244440237542, 0.0229591106702261); (0.3157894734211831, 0.0183609923740953);
   (0.3361545013198546, 0.0229591082358126); (0.3587302839648668, 0.0204919633933915); (0.3781117801248094, 0.0204919167569403); (0.4006875004189245, 0.0229590422084942);
   (0.4210314292052112, 0.0182902445254043); (0.4412554051437744, 0.0227648166032656); (0.4635521740233068, 0.0199050069732597); (0.4809225018480308, 0.0169479540962302);
   (0.5000000000000000, 0.0204399555546287); (0.5190774981519691, 0.0169479540962302); (0.5364478259766930, 0.0199050069732597); (0.5587445948562256, 0.0227648166032656);
   (0.5789685707947888, 0.0182902445254043); (0.5993124995810755, 0.0229590422084942); (0.6218882198751905, 0.0204919167569403); (0.6412697160351332, 0.0204919633933915);
   (0.6638454986801453, 0.0229591082358126); (0.6842105265788170, 0.0183609923740953); (0.7045755559762458, 0.0229591106702261); (0.7271513422532939, 0.0204919716487237);
   (0.7465328682730218, 0.0204919716487237); (0.7691086545500700, 0.0229591106702261); (0.7894736841912734, 0.0183609931922230); (0.8098387137227719, 0.0229591104920339);
   (0.8324144997339653, 0.0204919710444558); (0.8517960235682355, 0.0204919676315301); (0.8743718050187991, 0.0229591056676412); (0.8947311202636428, 0.0183418200097511);
   (0.9150578934447935, 0.0229062911652120); (0.9375556942917470, 0.0203184902445753); (0.9563058233984135, 0.0193218507761669); (0.9774488432837819, 0.0214233769356075);
   (0.9951259116454488, 0.0121318352586955)];
  [(0.0046303839368235, 0.0115252434957607); (0.0214235988804071, 0.0203522080888271); (0.0415094677715072, 0.0183557582373586); (0.0593220904228403, 0.0193025657323466);
   (0.0806950012274462, 0.0217609766069514); (0.1000054357495394, 0.0174247290092636); (0.1193467852321408, 0.0218111503842591); (0.1407937776101763, 0.0194673692499536);
   (0.1592062252527330, 0.0194673724922330); (0.1806532219633666, 0.0218111549674322); (0.2000000000182902, 0.0174429435326119); (0.2193467781774335, 0.0218111551367148);
   (0.2407937751406292, 0.0194673730662875); (0.2592062248593708, 0.0194673730662875); (0.2806532218225665, 0.0218111551367148); (0.3000000000000000, 0.0174429435939954);
   (0.3193467781774335, 0.0218111551367148); (0.3407937751406293, 0.0194673730662875); (0.3592062248593708, 0.0194673730662875); (0.3806532218225666, 0.0218111551367148);
   (0.4000000000000000, 0.0174429435939954); (0.4193467781774334, 0.0218111551367148); (0.4407937751406292, 0.0194673730662875); (0.4592062248593708, 0.0194673730662875);
   (0.4806532218225666, 0.0218111551367148); (0.5000000000000000, 0.0174429435939954); (0.5193467781774335, 0.0218111551367148); (0.5407937751406292, 0.0194673730662875);
   (0.5592062248593708, 0.0194673730662875); (0.5806532218225666, 0.0218111551367148); (0.6000000000000001, 0.0174429435939954); (0.6193467781774334, 0.0218111551367148);
   (0.6407937751406293, 0.0194673730662875); (0.6592062248593709, 0.0194673730662875); (0.6806532218225666, 0.0218111551367148); (0.7000000000000001, 0.0174429435939954);
   (0.7193467781774334, 0.0218111551367148); (0.7407937751406293, 0.0194673730662875); (0.7592062248593708, 0.0194673730662875); (0.7806532218225666, 0.0218111551367148);
   (0.7999999999817098, 0.0174429435326119); (0.8193467780366334, 0.0218111549674322); (0.8407937747472671, 0.0194673724922330); (0.8592062223898238, 0.0194673692499536);
   (0.8806532147678592, 0.0218111503842591); (0.8999945642504606, 0.0174247290092636); (0.9193049987725539, 0.0217609766069514); (0.9406779095771598, 0.0193025657323466);
   (0.9584905322284929, 0.0183557582373586); (0.9785764011195929, 0.0203522080888271); (0.9953696160631765, 0.0115252434957607)];
  [(0.0044098894636414, 0.0109764223769150); (0.0204034275051496, 0.0193830553226925); (0.0395328264490544, 0.0174816745117701); (0.0564972289741336, 0.0183833959355681);
   (0.0768523821213773, 0.0207247396256680); (0.0952432721424185, 0.0165949800088225); (0.1136636049829912, 0.0207725241754849); (0.1340893120096917, 0.0185403516666225);
   (0.1516249764311742, 0.0185403547545076); (0.1720506875841586, 0.0207725285404116); (0.1904761904936097, 0.0166123271739161); (0.2089016935023176, 0.0207725287016331);
   (0.2293274048958374, 0.0185403553012262); (0.2468630712946388, 0.0185403553012262); (0.2672887826881586, 0.0207725287016331); (0.2857142857142606, 0.0166123272322922);
   (0.3041397887402193, 0.0207725287014005); (0.3245655001333920, 0.0185403553004373); (0.3421011665293405, 0.0185403552959821); (0.3625268779165609, 0.0207725286951063);
   (0.3809521844806897, 0.0166116678958255); (0.3993763716087480, 0.0207707104640356); (0.4197993713523492, 0.0185341970156842); (0.4373126998171231, 0.0184991689352096);
   (0.4576881514230813, 0.0207187426278245); (0.4755853311815991, 0.0149353451208207); (0.4910008458807326, 0.0172839506172840); (0.5089991541192673, 0.0172839506172840);
   (0.5244146688184008, 0.0149353451208207); (0.5423118485769186, 0.0207187426278245); (0.5626873001828768, 0.0184991689352096); (0.5802006286476508, 0.0185341970156842);
   (0.6006236283912519, 0.0207707104640356); (0.6190478155193103, 0.0166116678958255); (0.6374731220834392, 0.0207725286951063); (0.6578988334706595, 0.0185403552959821);
   (0.6754344998666079, 0.0185403553004373); (0.6958602112597806, 0.0207725287014005); (0.7142857142857394, 0.0166123272322922); (0.7327112173118413, 0.0207725287016331);
   (0.7531369287053611, 0.0185403553012262); (0.7706725951041626, 0.0185403553012262); (0.7910983064976824, 0.0207725287016331); (0.8095238095063901, 0.0166123271739161);
   (0.8279493124158414, 0.0207725285404116); (0.8483750235688258, 0.0185403547545076); (0.8659106879903082, 0.0185403516666225); (0.8863363950170087, 0.0207725241754849);
   (0.9047567278575815, 0.0165949800088225); (0.9231476178786227, 0.0207247396256680); (0.9435027710258663, 0.0183833959355681); (0.9604671735509456, 0.0174816745117701);
   (0.9795965724948502, 0.0193830553226925); (0.9955901105363585, 0.0109764223769150)];
  [(0.0042094399425668, 0.0104774940870552); (0.0194759989821883, 0.0185020073534792); (0.0377358797922792, 0.0166870529430532); (0.0539291731116730, 0.0175477870294060);
   (0.0733590920249511, 0.0197827060063195); (0.0909140324995813, 0.0158406627356942); (0.1084970774837643, 0.0198283185311447); (0.1279943432819785, 0.0176976084090487);
   (0.1447329320479391, 0.0176976113565754); (0.1642302017848787, 0.0198283226976656); (0.1818181818348093, 0.0158572213932835); (0.1994061619794850, 0.0198283228515589);
   (0.2189034319460266, 0.0176976118784432); (0.2356420225994280, 0.0176976118784432); (0.2551392925659696, 0.0198283228515589); (0.2727272727272727, 0.0158572214490867);
   (0.2903152528885759, 0.0198283228515589); (0.3098125228551175, 0.0176976118784432); (0.3265511135085189, 0.0176976118784432); (0.3460483834750605, 0.0198283228515589);
   (0.3636363636363636, 0.0158572214490867); (0.3812243437976667, 0.0198283228515589); (0.4007216137642084, 0.0176976118784432); (0.4174602044176098, 0.0176976118784432);
   (0.4369574743841514, 0.0198283228515589); (0.4545454545454546, 0.0158572214490867); (0.4721334347067577, 0.0198283228515589); (0.4916307046732993, 0.0176976118784432);
   (0.5083692953267007, 0.0176976118784432); (0.5278665652932424, 0.0198283228515589); (0.5454545454545454, 0.0158572214490867); (0.5630425256158486, 0.0198283228515589);
   (0.5825397955823902, 0.0176976118784432); (0.5992783862357917, 0.0176976118784432); (0.6187756562023333, 0.0198283228515589); (0.6363636363636364, 0.0158572214490867);
   (0.6539516165249395, 0.0198283228515589); (0.6734488864914812, 0.0176976118784432); (0.6901874771448825, 0.0176976118784432); (0.7096847471114242, 0.0198283228515589);
   (0.7272727272727273, 0.0158572214490867); (0.7448607074340304, 0.0198283228515589); (0.7643579774005721, 0.0176976118784432); (0.7810965680539734, 0.0176976118784432);
   (0.8005938380205151, 0.0198283228515589); (0.8181818181651906, 0.0158572213932835); (0.8357697982151212, 0.0198283226976656); (0.8552670679520610, 0.0176976113565754);
   (0.8720056567180215, 0.0176976084090487); (0.8915029225162356, 0.0198283185311447); (0.9090859675004188, 0.0158406627356942); (0.9266409079750491, 0.0197827060063195);
   (0.9460708268883270, 0.0175477870294060); (0.9622641202077208, 0.0166870529430532); (0.9805240010178117, 0.0185020073534792); (0.9957905600574332, 0.0104774940870552)];
  [(0.0040264208146291, 0.0100219508658789); (0.0186292164177453, 0.0176975722511540); (0.0360951893665280, 0.0159615289020509); (0.0515844264546438, 0.0167848397672579);
   (0.0701695662847358, 0.0189225883538708); (0.0869612484778604, 0.0151519382689248); (0.1037798132453398, 0.0189662177254427); (0.1224293718349359, 0.0169281471738727);
   (0.1384401958719417, 0.0169281499932461); (0.1570897582290144, 0.0189662217108106); (0.1739130434941654, 0.0151677769848799); (0.1907363288499421, 0.0189662218580129);
   (0.2093858914266341, 0.0169281504924239); (0.2253967172690181, 0.0169281504924239); (0.2440462798457100, 0.0189662218580129); (0.2608695652173913, 0.0151677770382569);
   (0.2776928505890726, 0.0189662218580129); (0.2963424131657645, 0.0169281504924239); (0.3123532390081484, 0.0169281504924239); (0.3310028015848405, 0.0189662218580129);
   (0.3478260867392381, 0.0151677763090353); (0.3646493706555321, 0.0189662198469756); (0.3832989302318465, 0.0169281436728016); (0.3993097314074513, 0.0169281051470377);
   (0.4179592394765028, 0.0189661653026692); (0.4347650936912614, 0.0151093324340297); (0.4514718564231179, 0.0188057180635672); (0.4698909263670796, 0.0164432666300841);
   (0.4842403276135906, 0.0140004838186250); (0.5000000000000000, 0.0168851806755628); (0.5157596723864093, 0.0140004838186250); (0.5301090736329204, 0.0164432666300841);
   (0.5485281435768821, 0.0188057180635672); (0.5652349063087386, 0.0151093324340297); (0.5820407605234972, 0.0189661653026692); (0.6006902685925487, 0.0169281051470377);
   (0.6167010697681535, 0.0169281436728016); (0.6353506293444678, 0.0189662198469756); (0.6521739132607618, 0.0151677763090353); (0.6689971984151595, 0.0189662218580129);
   (0.6876467609918515, 0.0169281504924239); (0.7036575868342354, 0.0169281504924239); (0.7223071494109274, 0.0189662218580129); (0.7391304347826086, 0.0151677770382569);
   (0.7559537201542900, 0.0189662218580129); (0.7746032827309819, 0.0169281504924239); (0.7906141085733659, 0.0169281504924239); (0.8092636711500578, 0.0189662218580129);
   (0.8260869565058345, 0.0151677769848799); (0.8429102417709855, 0.0189662217108106); (0.8615598041280583, 0.0169281499932461); (0.8775706281650640, 0.0169281471738727);
   (0.8962201867546601, 0.0189662177254427); (0.9130387515221396, 0.0151519382689248); (0.9298304337152642, 0.0189225883538708); (0.9484155735453562, 0.0167848397672579);
   (0.9639048106334720, 0.0159615289020509); (0.9813707835822546, 0.0176975722511540); (0.9959735791853708, 0.0100219508658789)];
  [(0.0038586532806862, 0.0096043695798006); (0.0178529990670059, 0.0169601734073559); (0.0345912231429226, 0.0152964651977988); (0.0494350753523669, 0.0160854714436221);
   (0.0672458343562051, 0.0181341471724595); (0.0833378631246162, 0.0145206075077196); (0.0994556543601173, 0.0181759586535493); (0.1173281480084802, 0.0162228077082947);
   (0.1326718543772775, 0.0162228104101942); (0.1505443516361388, 0.0181759624728602); (0.1666666666819085, 0.0145357862771766); (0.1827889818145279, 0.0181759626139290);
   (0.2006614792838577, 0.0162228108885729); (0.2160051873828090, 0.0162228108885729); (0.2338776848521388, 0.0181759626139290); (0.2500000000000000, 0.0145357863283295);
   (0.2661223151478612, 0.0181759626139290); (0.2839948126171910, 0.0162228108885729); (0.2993385207161423, 0.0162228108885729); (0.3172110181854721, 0.0181759626139290);
   (0.3333333333333333, 0.0145357863283295); (0.3494556484811945, 0.0181759626139290); (0.3673281459505243, 0.0162228108885729); (0.3826718540494756, 0.0162228108885729);
   (0.4005443515188055, 0.0181759626139290); (0.4166666666666666, 0.0145357863283295); (0.4327889818145279, 0.0181759626139290); (0.4506614792838577, 0.0162228108885729);
   (0.4660051873828089, 0.0162228108885729); (0.4838776848521388, 0.0181759626139290); (0.5000000000000000, 0.0145357863283295); (0.5161223151478611, 0.0181759626139290);
   (0.5339948126171910, 0.0162228108885729); (0.5493385207161423, 0.0162228108885729); (0.5672110181854721, 0.0181759626139290); (0.5833333333333333, 0.0145357863283295);
   (0.5994556484811945, 0.0181759626139290); (0.6173281459505243, 0.0162228108885729); (0.6326718540494756, 0.0162228108885729); (0.6505443515188054, 0.0181759626139290);
   (0.6666666666666666, 0.0145357863283295); (0.6827889818145279, 0.0181759626139290); (0.7006614792838577, 0.0162228108885729); (0.7160051873828089, 0.0162228108885729);
   (0.7338776848521388, 0.0181759626139290); (0.7500000000000000, 0.0145357863283295); (0.7661223151478611, 0.0181759626139290); (0.7839948126171910, 0.0162228108885729);
   (0.7993385207161423, 0.0162228108885729); (0.8172110181854721, 0.0181759626139290); (0.8333333333180915, 0.0145357862771766); (0.8494556483638611, 0.0181759624728602);
   (0.8673281456227225, 0.0162228104101942); (0.8826718519915198, 0.0162228077082947); (0.9005443456398826, 0.0181759586535493); (0.9166621368753838, 0.0145206075077196);
   (0.9327541656437949, 0.0181341471724595); (0.9505649246476331, 0.0160854714436221); (0.9654087768570774, 0.0152964651977988); (0.9821470009329940, 0.0169601734073559);
   (0.9961413467193136, 0.0096043695798006)];
  [(0.0037043071494588, 0.0092201947966086); (0.0171388791043257, 0.0162817664710617); (0.0332075742172057, 0.0146846065898868); (0.0474576723382723, 0.0154420525858772);
   (0.0645560009819569, 0.0174087812855611); (0.0800043485996315, 0.0139397832074109); (0.0954774281857126, 0.0174489203074073); (0.1126350220881410, 0.0155738953999629);
   (0.1273649802021864, 0.0155738979937864); (0.1445225775706933, 0.0174489239739457); (0.1600000000146322, 0.0139543548260895); (0.1754774225419468, 0.0174489241093718);
   (0.1926350201125034, 0.0155738984530300); (0.2073649798874966, 0.0155738984530300); (0.2245225774580532, 0.0174489241093718); (0.2400000000000000, 0.0139543548751963);
   (0.2554774225419468, 0.0174489241093718); (0.2726350201125034, 0.0155738984530300); (0.2873649798874966, 0.0155738984530300); (0.3045225774580532, 0.0174489241093718);
   (0.3199999999999789, 0.0139543548751255); (0.3354774225417843, 0.0174489241091764); (0.3526350201120493, 0.0155738984523674); (0.3673649798846460, 0.0155738984486250);
   (0.3845225774499111, 0.0174489241038893); (0.3999998349637794, 0.0139538010324935); (0.4154761521513484, 0.0174473967897899); (0.4326314719359733, 0.0155687254931747);
   (0.4473426678463834, 0.0155393019055761); (0.4644580471953884, 0.0174037438073726); (0.4794916781925433, 0.0125456899014894); (0.4924407105398154, 0.0145185185185185);
   (0.5075592894601846, 0.0145185185185185); (0.5205083218074568, 0.0125456899014894); (0.5355419528046117, 0.0174037438073726); (0.5526573321536166, 0.0155393019055761);
   (0.5673685280640267, 0.0155687254931747); (0.5845238478486516, 0.0174473967897899); (0.6000001650362207, 0.0139538010324935); (0.6154774225500889, 0.0174489241038893);
   (0.6326350201153540, 0.0155738984486250); (0.6473649798879507, 0.0155738984523674); (0.6645225774582159, 0.0174489241091764); (0.6800000000000210, 0.0139543548751255);
   (0.6954774225419468, 0.0174489241093718); (0.7126350201125033, 0.0155738984530300); (0.7273649798874966, 0.0155738984530300); (0.7445225774580533, 0.0174489241093718);
   (0.7600000000000000, 0.0139543548751963); (0.7754774225419467, 0.0174489241093718); (0.7926350201125034, 0.0155738984530300); (0.8073649798874967, 0.0155738984530300);
   (0.8245225774580532, 0.0174489241093718); (0.8399999999853678, 0.0139543548260895); (0.8554774224293067, 0.0174489239739457); (0.8726350197978137, 0.0155738979937864);
   (0.8873649779118590, 0.0155738953999629); (0.9045225718142874, 0.0174489203074073); (0.9199956514003685, 0.0139397832074109); (0.9354439990180431, 0.0174087812855611);
   (0.9525423276617278, 0.0154420525858772); (0.9667924257827943, 0.0146846065898868); (0.9828611208956742, 0.0162817664710617); (0.9962956928505412, 0.0092201947966086)]].
(** precomputed_ggq_rules_optimal.cpp:1931-4810 *)
Definition S_8_2_precomputed : list (list (Q * Q)) := [
  [(0.0469100770306680, 0.1184634425280945); (0.2307653449471584, 0.2393143352496832); (0.5000000000000000, 0.2844444444444444); (0.7692346550528415, 0.2393143352496832);
   (0.9530899229693320, 0.1184634425280945)];
  [(0.0293173655586072, 0.0737853886173769); (0.1421577047749542, 0.1445194213771602); (0.2998568254270798, 0.1605649753012993); (0.4438116663737563, 0.1211302147041636);
   (0.5561883336262438, 0.1211302147041636); (0.7001431745729203, 0.1605649753012993); (0.8578422952250458, 0.1445194213771602); (0.9706826344413928, 0.0737853886173769)];
  [(0.0202160372772979, 0.0508822110744474); (0.0980544320488951, 0.0997318879286161); (0.2070369694286659, 0.1112586358679218); (0.3087102405729628, 0.0899427669193913);
   (0.3968578367488181, 0.0940986497902544); (0.5000000000000000, 0.1081716968387379); (0.6031421632511818, 0.0940986497902544); (0.6912897594270372, 0.0899427669193913);
   (0.7929630305713340, 0.1112586358679218); (0.9019455679511048, 0.0997318879286161); (0.9797839627227020, 0.0508822110744474)];
  [(0.0152539239463897, 0.0383936316369450); (0.0739933288350767, 0.0752708623001944); (0.1562856419945987, 0.0840896734381072); (0.2339433133516802, 0.0707476596257453);
   (0.3068719440854957, 0.0799585311228663); (0.3924166284028009, 0.0864716948732330); (0.4698226298308531, 0.0650679470029087); (0.5301773701691469, 0.0650679470029087);
   (0.6075833715971990, 0.0864716948732330); (0.6931280559145042, 0.0799585311228663); (0.7660566866483198, 0.0707476596257453); (0.8437143580054013, 0.0840896734381072);
   (0.9260066711649233, 0.0752708623001944); (0.9847460760536103, 0.0383936316369450)];
  [(0.0122171418928795, 0.0307502553021388); (0.0592636446598149, 0.0602886915696861); (0.1251824892349217, 0.0673711417713453); (0.1875540351447864, 0.0572102676603133);
   (0.2472573336329959, 0.0660058631277357); (0.3180545224222150, 0.0717592550450609); (0.3832999624903167, 0.0570495513986469); (0.4377924376712081, 0.0569764061906434);
   (0.5000000000000000, 0.0651771358688597); (0.5622075623287919, 0.0569764061906434); (0.6167000375096834, 0.0570495513986469); (0.6819454775777850, 0.0717592550450609);
   (0.7527426663670043, 0.0660058631277357); (0.8124459648552137, 0.0572102676603133); (0.8748175107650784, 0.0673711417713453); (0.9407363553401851, 0.0602886915696861);
   (0.9877828581071205, 0.0307502553021388)];
  [(0.0101831990477421, 0.0256308865491706); (0.0493974427638739, 0.0502521342775449); (0.1043434622220619, 0.0561585945244110); (0.1563602937500972, 0.0477773291572864);
   (0.2063403981661016, 0.0553473455521001); (0.2657477345702402, 0.0602739859748263); (0.3210568663913413, 0.0496508904470464); (0.3708997351590070, 0.0536545534891905);
   (0.4281225201581190, 0.0577850004504235); (0.4798401077858094, 0.0434692795780002); (0.5201598922141906, 0.0434692795780002); (0.5718774798418809, 0.0577850004504235);
   (0.6291002648409929, 0.0536545534891905); (0.6789431336086587, 0.0496508904470464); (0.7342522654297597, 0.0602739859748263); (0.7936596018338983, 0.0553473455521001);
   (0.8436397062499027, 0.0477773291572864); (0.8956565377779381, 0.0561585945244110); (0.9506025572361261, 0.0502521342775449); (0.9898168009522579, 0.0256308865491706)];
  [(0.0087288292504087, 0.0219702727847744); (0.0423425024572153, 0.0430751758122141); (0.0894413555503040, 0.0481385897706159); (0.1340339768756666, 0.0409690649375849);
   (0.1769120566343620, 0.0474978107311027); (0.2279013222306120, 0.0517435262327121); (0.2754861100869013, 0.0429818881310703); (0.3191662945702929, 0.0474422699007908);
   (0.3699018081375796, 0.0513755386207183); (0.4166012085687429, 0.0408169414720111); (0.4555592602645424, 0.0407085182273574); (0.5000000000000000, 0.0465608067580959);
   (0.5444407397354576, 0.0407085182273574); (0.5833987914312569, 0.0408169414720111); (0.6300981918624203, 0.0513755386207183); (0.6808337054297070, 0.0474422699007908);
   (0.7245138899130987, 0.0429818881310703); (0.7720986777693879, 0.0517435262327121); (0.8230879433656378, 0.0474978107311027); (0.8659660231243334, 0.0409690649375849);
   (0.9105586444496959, 0.0481385897706159); (0.9576574975427846, 0.0430751758122141); (0.9912711707495911, 0.0219702727847744)];
  [(0.0076377886963300, 0.0192241479901093); (0.0370500005273209, 0.0376911033569945); (0.0782618802473250, 0.0421217147466801); (0.1172815699982982, 0.0358508241153122);
   (0.1548063265720425, 0.0415702805891931); (0.1994335780662798, 0.0452891793132680); (0.2411010203121138, 0.0376835842760980); (0.2794896720945967, 0.0417687698817366);
   (0.3241913162694911, 0.0453105753666667); (0.3657568827411964, 0.0372952886489743); (0.4031671199681788, 0.0402488328574841); (0.4460884955130834, 0.0433417589117649);
   (0.4848791713059356, 0.0326039399457183); (0.5151208286940644, 0.0326039399457183); (0.5539115044869166, 0.0433417589117649); (0.5968328800318211, 0.0402488328574841);
   (0.6342431172588036, 0.0372952886489743); (0.6758086837305088, 0.0453105753666667); (0.7205103279054034, 0.0417687698817366); (0.7588989796878862, 0.0376835842760980);
   (0.8005664219337202, 0.0452891793132680); (0.8451936734279575, 0.0415702805891931); (0.8827184300017018, 0.0358508241153122); (0.9217381197526751, 0.0421217147466801);
   (0.9629499994726790, 0.0376911033569945); (0.9923622113036700, 0.0192241479901093)];
  [(0.0067891563764360, 0.0170881589848353); (0.0329333873468876, 0.0335032588788690); (0.0695662353329063, 0.0374416015025960); (0.1042506014429012, 0.0318678975141258);
   (0.1376070495579920, 0.0369530309884574); (0.1772777237824526, 0.0402593908949824); (0.2143207748814959, 0.0335094304917191); (0.2484732366237712, 0.0371723240208267);
   (0.2882616322039385, 0.0403385931536020); (0.3253464916877152, 0.0334808471331853); (0.3593446214079006, 0.0369064950979843); (0.3988094049209663, 0.0399614588300208);
   (0.4351333297815123, 0.0317480353926918); (0.4654348269474124, 0.0316624320655088); (0.5000000000000000, 0.0362140901011904); (0.5345651730525876, 0.0316624320655088);
   (0.5648666702184876, 0.0317480353926918); (0.6011905950790336, 0.0399614588300208); (0.6406553785920993, 0.0369064950979843); (0.6746535083122848, 0.0334808471331853);
   (0.7117383677960616, 0.0403385931536020); (0.7515267633762288, 0.0371723240208267); (0.7856792251185040, 0.0335094304917191); (0.8227222762175472, 0.0402593908949824);
   (0.8623929504420079, 0.0369530309884574); (0.8957493985570988, 0.0318678975141258); (0.9304337646670936, 0.0374416015025960); (0.9670666126531124, 0.0335032588788690);
   (0.9932108436235639, 0.0170881589848353)];
  [(0.0061102426307964, 0.0153793478627723); (0.0296400579332842, 0.0301529427211651); (0.0626096326121983, 0.0336974548058432); (0.0938255964834094, 0.0286811945115396);
   (0.1238465928404919, 0.0332580186980555); (0.1595505489096911, 0.0362338596497668); (0.1928902227605827, 0.0301607380927176); (0.2236325306167047, 0.0334628527245917);
   (0.2594514336244665, 0.0363156487318829); (0.2928524202652310, 0.0301922607875088); (0.3235854827185574, 0.0334212710875931); (0.3593502631184311, 0.0362509204815486);
   (0.3926046720210117, 0.0298375636246240); (0.4225335169998983, 0.0321992509212074); (0.4568707173371434, 0.0346734772160992); (0.4879033158590231, 0.0260831980830841);
   (0.5120966841409769, 0.0260831980830841); (0.5431292826628566, 0.0346734772160992); (0.5774664830001017, 0.0321992509212074); (0.6073953279789883, 0.0298375636246240);
   (0.6406497368815689, 0.0362509204815486); (0.6764145172814428, 0.0334212710875931); (0.7071475797347690, 0.0301922607875088); (0.7405485663755336, 0.0363156487318829);
   (0.7763674693832954, 0.0334628527245917); (0.8071097772394173, 0.0301607380927176); (0.8404494510903089, 0.0362338596497668); (0.8761534071595082, 0.0332580186980555);
   (0.9061744035165907, 0.0286811945115396); (0.9373903673878017, 0.0336974548058432); (0.9703599420667159, 0.0301529427211651); (0.9938897573692037, 0.0153793478627723)];
  [(0.0055547663612924, 0.0139812261712079); (0.0269455088540803, 0.0274117678242206); (0.0569178514956189, 0.0306340521934663); (0.0852960065245101, 0.0260738284741529);
   (0.1125878554032393, 0.0302346136821071); (0.1450460588120576, 0.0329399442561980); (0.1753550167064643, 0.0274192493914024); (0.2033034665785232, 0.0304221427236860);
   (0.2358677527785868, 0.0330161498869824); (0.2662366446032244, 0.0274580652454034); (0.2941996882401875, 0.0304194065831546); (0.3267569843709668, 0.0330065453093174);
   (0.3571009213925829, 0.0273946252009724); (0.3849181611990186, 0.0301963890644349); (0.4172076207813335, 0.0326958035302545); (0.4469272473424688, 0.0259757016612426);
   (0.4717194002149924, 0.0259056322203815); (0.5000000000000000, 0.0296297131628300); (0.5282805997850076, 0.0259056322203815); (0.5530727526575312, 0.0259757016612426);
   (0.5827923792186666, 0.0326958035302545); (0.6150818388009814, 0.0301963890644349); (0.6428990786074171, 0.0273946252009724); (0.6732430156290331, 0.0330065453093174);
   (0.7058003117598125, 0.0304194065831546); (0.7337633553967756, 0.0274580652454034); (0.7641322472214132, 0.0330161498869824); (0.7966965334214768, 0.0304221427236860);
   (0.8246449832935357, 0.0274192493914024); (0.8549539411879425, 0.0329399442561980); (0.8874121445967607, 0.0302346136821071); (0.9147039934754900, 0.0260738284741529);
   (0.9430821485043811, 0.0306340521934663); (0.9730544911459198, 0.0274117678242206); (0.9944452336387076, 0.0139812261712079)];
  [(0.0050918692236132, 0.0128161241394613); (0.0247000500740431, 0.0251274541427828); (0.0521746978543806, 0.0280812149308864); (0.0781880077044612, 0.0239010121441991);
   (0.1032055418732254, 0.0277150716251845); (0.1329589059072005, 0.0301949616404811); (0.1607421462982003, 0.0251343822614729); (0.1863617177801862, 0.0278872066430049);
   (0.2162126055219724, 0.0302651451913814); (0.2440515299328012, 0.0251717672321617); (0.2696885621381426, 0.0278909237214522); (0.2995405401985555, 0.0302650965911746);
   (0.3273763269959433, 0.0251613205989403); (0.3529877504457309, 0.0278512111902070); (0.3827918182327043, 0.0302091601044809); (0.4105038731095982, 0.0248646686924086);
   (0.4354445931572043, 0.0268327135811763); (0.4640589291956342, 0.0288945660473515); (0.4899194293684649, 0.0217359995217926); (0.5100805706315350, 0.0217359995217926);
   (0.5359410708043657, 0.0288945660473515); (0.5645554068427956, 0.0268327135811763); (0.5894961268904018, 0.0248646686924086); (0.6172081817672956, 0.0302091601044809);
   (0.6470122495542689, 0.0278512111902070); (0.6726236730040567, 0.0251613205989403); (0.7004594598014445, 0.0302650965911746); (0.7303114378618574, 0.0278909237214522);
   (0.7559484700671987, 0.0251717672321617); (0.7837873944780276, 0.0302651451913814); (0.8136382822198138, 0.0278872066430049); (0.8392578537017996, 0.0251343822614729);
   (0.8670410940927995, 0.0301949616404811); (0.8967944581267746, 0.0277150716251845); (0.9218119922955388, 0.0239010121441991); (0.9478253021456193, 0.0280812149308864);
   (0.9752999499259569, 0.0251274541427828); (0.9949081307763868, 0.0128161241394613)];
  [(0.0047001869862133, 0.0118302684631111); (0.0228000462742693, 0.0231945731092377); (0.0481612596741670, 0.0259211215498274); (0.0721735458816611, 0.0220624732331522);
   (0.0952666554237135, 0.0255831446633598); (0.1227313010987238, 0.0278722745621498); (0.1483773743370581, 0.0232009808195526); (0.1720262380096451, 0.0257420802741038);
   (0.1995809558587534, 0.0279371181187537); (0.2252785629420613, 0.0232358127532846); (0.2489442747360575, 0.0257466252012319); (0.2765013406355464, 0.0279386402178457);
   (0.3021996010886429, 0.0232347657228566); (0.3258611345021530, 0.0257396381501000); (0.3534096935977520, 0.0279286705026944); (0.3790853764563577, 0.0231800971629426);
   (0.4026230554008258, 0.0255507948319271); (0.4299449080649232, 0.0276656814990345); (0.4550922856590366, 0.0219794407625327); (0.4760702616304248, 0.0219201504877777);
   (0.5000000000000000, 0.0250712958290484); (0.5239297383695752, 0.0219201504877777); (0.5449077143409635, 0.0219794407625327); (0.5700550919350768, 0.0276656814990345);
   (0.5973769445991742, 0.0255507948319271); (0.6209146235436424, 0.0231800971629426); (0.6465903064022479, 0.0279286705026944); (0.6741388654978471, 0.0257396381501000);
   (0.6978003989113573, 0.0232347657228566); (0.7234986593644537, 0.0279386402178457); (0.7510557252639426, 0.0257466252012319); (0.7747214370579387, 0.0232358127532846);
   (0.8004190441412466, 0.0279371181187537); (0.8279737619903550, 0.0257420802741038); (0.8516226256629420, 0.0232009808195526); (0.8772686989012763, 0.0278722745621498);
   (0.9047333445762865, 0.0255831446633598); (0.9278264541183390, 0.0220624732331522); (0.9518387403258329, 0.0259211215498274); (0.9771999537257307, 0.0231945731092377);
   (0.9952998130137868, 0.0118302684631111)];
  [(0.0043644593462395, 0.0109852492919675); (0.0211714715497461, 0.0215378178969130); (0.0447211697183252, 0.0240696128811967); (0.0670182926597750, 0.0204865823749761);
   (0.0884618945711164, 0.0237557774792199); (0.1139647801912456, 0.0258813982169708); (0.1377789919867013, 0.0215437701630204); (0.1597386562226239, 0.0239033680446585);
   (0.1853251893226388, 0.0259416206412528); (0.2091872779009159, 0.0215761720694969); (0.2311627180366059, 0.0239077883870942); (0.2567516724474463, 0.0259433154869670);
   (0.2806150059387015, 0.0215767459271381); (0.3025900659641560, 0.0239066363020608); (0.3281775479501647, 0.0259415626835135); (0.3520368344921929, 0.0215668737640068);
   (0.3739894965929791, 0.0238724705268951); (0.3995358425098516, 0.0258935672938894); (0.4232890335887699, 0.0213125739720122); (0.4446667940263633, 0.0229994688956794);
   (0.4691933678340874, 0.0247667709401726); (0.4913595108744261, 0.0186308567608981); (0.5086404891255739, 0.0186308567608981); (0.5308066321659125, 0.0247667709401726);
   (0.5553332059736366, 0.0229994688956794); (0.5767109664112300, 0.0213125739720122); (0.6004641574901483, 0.0258935672938894); (0.6260105034070208, 0.0238724705268951);
   (0.6479631655078070, 0.0215668737640068); (0.6718224520498354, 0.0259415626835135); (0.6974099340358439, 0.0239066363020608); (0.7193849940612984, 0.0215767459271381);
   (0.7432483275525537, 0.0259433154869670); (0.7688372819633940, 0.0239077883870942); (0.7908127220990840, 0.0215761720694969); (0.8146748106773611, 0.0259416206412528);
   (0.8402613437773760, 0.0239033680446585); (0.8622210080132987, 0.0215437701630204); (0.8860352198087543, 0.0258813982169708); (0.9115381054288836, 0.0237557774792199);
   (0.9329817073402250, 0.0204865823749761); (0.9552788302816748, 0.0240696128811967); (0.9788285284502538, 0.0215378178969130); (0.9956355406537605, 0.0109852492919675)];
  [(0.0040734953901669, 0.0102528993400365); (0.0197600401147880, 0.0201019633722180); (0.0417397584075473, 0.0224649720248919); (0.0625504064924717, 0.0191208102323879);
   (0.0825644349780931, 0.0221720590333822); (0.1063671282869336, 0.0241559717431908); (0.1285937261311234, 0.0201075192274048); (0.1490894136757522, 0.0223098115839239);
   (0.1729701795994226, 0.0242121812472948); (0.1952414667682965, 0.0201377714908754); (0.2157519022176698, 0.0223139734183930); (0.2396349716148752, 0.0242138140100785);
   (0.2619075361519121, 0.0201385867926120); (0.2824182499600513, 0.0223138634129740); (0.3063011078151396, 0.0242135360916073); (0.3285729715437532, 0.0201368226553233);
   (0.3490796463648564, 0.0223076899366092); (0.3729550662098500, 0.0242048491630029); (0.3952073257936128, 0.0200894182903182); (0.4156066479112104, 0.0221440222907569);
   (0.4392855869434968, 0.0239769240059234); (0.4610799808905227, 0.0190488486834551); (0.4792608934107648, 0.0189974637597950); (0.5000000000000000, 0.0217284563870902);
   (0.5207391065892352, 0.0189974637597950); (0.5389200191094773, 0.0190488486834551); (0.5607144130565033, 0.0239769240059234); (0.5843933520887896, 0.0221440222907569);
   (0.6047926742063872, 0.0200894182903182); (0.6270449337901500, 0.0242048491630029); (0.6509203536351436, 0.0223076899366092); (0.6714270284562468, 0.0201368226553233);
   (0.6936988921848605, 0.0242135360916073); (0.7175817500399487, 0.0223138634129740); (0.7380924638480878, 0.0201385867926120); (0.7603650283851249, 0.0242138140100785);
   (0.7842480977823302, 0.0223139734183930); (0.8047585332317035, 0.0201377714908754); (0.8270298204005774, 0.0242121812472948); (0.8509105863242478, 0.0223098115839239);
   (0.8714062738688766, 0.0201075192274048); (0.8936328717130664, 0.0241559717431908); (0.9174355650219068, 0.0221720590333822); (0.9374495935075283, 0.0191208102323879);
   (0.9582602415924527, 0.0224649720248919); (0.9802399598852121, 0.0201019633722180); (0.9959265046098332, 0.0102528993400365)];
  [(0.0038189019283437, 0.0096120931314414); (0.0185250376079205, 0.0188455906617746); (0.0391310235077605, 0.0210609112737789); (0.0586410060885083, 0.0179257595957185);
   (0.0774041578001317, 0.0207863053533661); (0.0997191827886638, 0.0226462235226635); (0.1205566182981342, 0.0188507993497830); (0.1397713255388562, 0.0209154486154134);
   (0.1621595439000211, 0.0226989202787679); (0.1830388764360909, 0.0188791627479249); (0.2022674141408969, 0.0209193568962226); (0.2246577999117277, 0.0227004602251023);
   (0.2455383509163060, 0.0188799778156612); (0.2647672643964303, 0.0209194288124574); (0.2871576627023780, 0.0227004459607903); (0.3080381151348949, 0.0188796767748742);
   (0.3272663044026073, 0.0209183100829815); (0.3496553529803725, 0.0226988686555737); (0.3705322297419820, 0.0188710152450627); (0.3897408094223208, 0.0208884118076548);
   (0.4120938621530733, 0.0226568714201159); (0.4328779043773032, 0.0186485022460733); (0.4515834447703066, 0.0201245352865682); (0.4730441968536065, 0.0216709245737324);
   (0.4924395720147960, 0.0163019996664975); (0.5075604279852040, 0.0163019996664975); (0.5269558031463935, 0.0216709245737324); (0.5484165552296933, 0.0201245352865682);
   (0.5671220956226968, 0.0186485022460733); (0.5879061378469268, 0.0226568714201159); (0.6102591905776793, 0.0208884118076548); (0.6294677702580180, 0.0188710152450627);
   (0.6503446470196275, 0.0226988686555737); (0.6727336955973927, 0.0209183100829815); (0.6919618848651051, 0.0188796767748742); (0.7128423372976219, 0.0227004459607903);
   (0.7352327356035697, 0.0209194288124574); (0.7544616490836940, 0.0188799778156612); (0.7753422000882723, 0.0227004602251023); (0.7977325858591031, 0.0209193568962226);
   (0.8169611235639092, 0.0188791627479249); (0.8378404560999789, 0.0226989202787679); (0.8602286744611438, 0.0209154486154134); (0.8794433817018659, 0.0188507993497830);
   (0.9002808172113362, 0.0226462235226635); (0.9225958421998683, 0.0207863053533661); (0.9413589939114917, 0.0179257595957185); (0.9608689764922396, 0.0210609112737789);
   (0.9814749623920795, 0.0188455906617746); (0.9961810980716563, 0.0096120931314414)];
  [(0.0035942606384525, 0.0090466758884441); (0.0174353295133929, 0.0177370265052580); (0.0368291985956642, 0.0198220341401079); (0.0551915351424567, 0.0168713031494322);
   (0.0728509720486726, 0.0195635815107959); (0.0938533485105639, 0.0213140927296606); (0.1134650525250475, 0.0177419288133083); (0.1315494828998289, 0.0196851281552192);
   (0.1526207472958709, 0.0213636897396865); (0.1722718839490908, 0.0177686241229911); (0.1903693320160883, 0.0196888077337382); (0.2114426377684848, 0.0213651407845152);
   (0.2310949250338623, 0.0177694004962999); (0.2491927477114786, 0.0196889073444805); (0.2702661037175668, 0.0213651722769883); (0.2899184000763302, 0.0177693639590820);
   (0.3080160997849445, 0.0196887061349218); (0.3290892113889453, 0.0213648860174148); (0.3487408568317169, 0.0177677853560319); (0.3668349819957667, 0.0196832559173643);
   (0.3879015289682304, 0.0213572198855224); (0.4075358756882085, 0.0177259573342322); (0.4255352775660730, 0.0195388432003751); (0.4464284590666068, 0.0211561094180213);
   (0.4656588066677493, 0.0168078076624526); (0.4817007883035577, 0.0167624680234441); (0.5000000000000000, 0.0191721674004229); (0.5182992116964423, 0.0167624680234441);
   (0.5343411933322507, 0.0168078076624526); (0.5535715409333931, 0.0211561094180213); (0.5744647224339271, 0.0195388432003751); (0.5924641243117915, 0.0177259573342322);
   (0.6120984710317696, 0.0213572198855224); (0.6331650180042333, 0.0196832559173643); (0.6512591431682830, 0.0177677853560319); (0.6709107886110547, 0.0213648860174148);
   (0.6919839002150556, 0.0196887061349218); (0.7100815999236697, 0.0177693639590820); (0.7297338962824332, 0.0213651722769883); (0.7508072522885214, 0.0196889073444805);
   (0.7689050749661377, 0.0177694004962999); (0.7885573622315152, 0.0213651407845152); (0.8096306679839117, 0.0196888077337382); (0.8277281160509091, 0.0177686241229911);
   (0.8473792527041291, 0.0213636897396865); (0.8684505171001711, 0.0196851281552192); (0.8865349474749525, 0.0177419288133083); (0.9061466514894361, 0.0213140927296606);
   (0.9271490279513273, 0.0195635815107959); (0.9448084648575433, 0.0168713031494322); (0.9631708014043358, 0.0198220341401079); (0.9825646704866071, 0.0177370265052580);
   (0.9964057393615476, 0.0090466758884441)];
  [(0.0033945794918739, 0.0085440827835358); (0.0164667000959924, 0.0167516361438655); (0.0347831320070390, 0.0187208100212278); (0.0521253387457140, 0.0159340085301144);
   (0.0688036958240186, 0.0184767158716261); (0.0886392735939655, 0.0201299764673488); (0.1071614384975508, 0.0167562661039263); (0.1242411783015404, 0.0185915099328855);
   (0.1441418169080546, 0.0201768180994566); (0.1627012237743681, 0.0167814784041883); (0.1797932582088244, 0.0185949853089652); (0.1996958250263148, 0.0201781888382361);
   (0.2182563192794040, 0.0167822133355588); (0.2353487113380209, 0.0185950852177715); (0.2552513326424156, 0.0201782267866526); (0.2738118540933500, 0.0167822239147358);
   (0.2909042320714513, 0.0185950507832456); (0.3108068099790711, 0.0201781753497202); (0.3293672130634207, 0.0167819355344585); (0.3464589371609371, 0.0185940534929883);
   (0.3663603137221290, 0.0201767721721282); (0.3849175375370744, 0.0167742357915467); (0.4019918305951199, 0.0185674771648606); (0.4218612108016176, 0.0201394412633078);
   (0.4403359150017142, 0.0165764464414862); (0.4569630620179788, 0.0178884758103566); (0.4760392860920631, 0.0192630440655679); (0.4932796195686991, 0.0144906663702384);
   (0.5067203804313009, 0.0144906663702384); (0.5239607139079369, 0.0192630440655679); (0.5430369379820211, 0.0178884758103566); (0.5596640849982857, 0.0165764464414862);
   (0.5781387891983824, 0.0201394412633078); (0.5980081694048800, 0.0185674771648606); (0.6150824624629256, 0.0167742357915467); (0.6336396862778709, 0.0201767721721282);
   (0.6535410628390629, 0.0185940534929883); (0.6706327869365792, 0.0167819355344585); (0.6891931900209288, 0.0201781753497202); (0.7090957679285486, 0.0185950507832456);
   (0.7261881459066500, 0.0167822239147358); (0.7447486673575843, 0.0201782267866526); (0.7646512886619790, 0.0185950852177715); (0.7817436807205960, 0.0167822133355588);
   (0.8003041749736851, 0.0201781888382361); (0.8202067417911755, 0.0185949853089652); (0.8372987762256319, 0.0167814784041883); (0.8558581830919454, 0.0201768180994566);
   (0.8757588216984595, 0.0185915099328855); (0.8928385615024492, 0.0167562661039263); (0.9113607264060345, 0.0201299764673488); (0.9311963041759814, 0.0184767158716261);
   (0.9478746612542858, 0.0159340085301144); (0.9652168679929609, 0.0187208100212278); (0.9835332999040075, 0.0167516361438655); (0.9966054205081261, 0.0085440827835358)];
  [(0.0032159174133546, 0.0080943942159822); (0.0156000316698894, 0.0158699710836640); (0.0329524408487780, 0.0177355042306396); (0.0493818998643718, 0.0150953765022311);
   (0.0651824486754360, 0.0175042571415990); (0.0839740486680876, 0.0190705040217810); (0.1015213627874605, 0.0158743573620676); (0.1177021689185812, 0.0176130094116646);
   (0.1365554054950556, 0.0191148803069467); (0.1541380014786546, 0.0158982427107855); (0.1703304551807483, 0.0176163019133420); (0.1891855185317482, 0.0191161789580397);
   (0.2067691447992884, 0.0158989392717880); (0.2229619380054483, 0.0176163976344150); (0.2418170542652707, 0.0191162164155244); (0.2594007097155344, 0.0158989575711399);
   (0.2755935083178087, 0.0176163935765936); (0.2944486178728377, 0.0191162078753260); (0.3120322523305757, 0.0158989051856094); (0.3282249313052210, 0.0176162108336717);
   (0.3470798206802352, 0.0191159506792230); (0.3646628718913089, 0.0158974921778587); (0.3808523523096344, 0.0176113342442216); (0.3997013680231520, 0.0191090914774531);
   (0.4172689414049255, 0.0158600670890250); (0.4333736694011543, 0.0174821228635625); (0.4520675686385121, 0.0189291505319407); (0.4692736691237663, 0.0150385647506306);
   (0.4836270211137080, 0.0149979977051893); (0.5000000000000000, 0.0171540445161691); (0.5163729788862920, 0.0149979977051893); (0.5307263308762337, 0.0150385647506306);
   (0.5479324313614878, 0.0189291505319407); (0.5666263305988456, 0.0174821228635625); (0.5827310585950745, 0.0158600670890250); (0.6002986319768480, 0.0191090914774531);
   (0.6191476476903656, 0.0176113342442216); (0.6353371281086910, 0.0158974921778587); (0.6529201793197648, 0.0191159506792230); (0.6717750686947790, 0.0176162108336717);
   (0.6879677476694243, 0.0158989051856094); (0.7055513821271623, 0.0191162078753260); (0.7244064916821912, 0.0176163935765936); (0.7405992902844656, 0.0158989575711399);
   (0.7581829457347292, 0.0191162164155244); (0.7770380619945517, 0.0176163976344150); (0.7932308552007115, 0.0158989392717880); (0.8108144814682517, 0.0191161789580397);
   (0.8296695448192517, 0.0176163019133420); (0.8458619985213454, 0.0158982427107855); (0.8634445945049444, 0.0191148803069467); (0.8822978310814188, 0.0176130094116646);
   (0.8984786372125394, 0.0158743573620676); (0.9160259513319124, 0.0190705040217810); (0.9348175513245639, 0.0175042571415990); (0.9506181001356282, 0.0150953765022311);
   (0.9670475591512220, 0.0177355042306396); (0.9843999683301105, 0.0158699710836640); (0.9967840825866454, 0.0080943942159822)];
  [(0.0030551215426869, 0.0076896745051833); (0.0148200300863953, 0.0150764725294812); (0.0313048188063398, 0.0168487290191081); (0.0469128048711552, 0.0143406076771227);
   (0.0619233262416734, 0.0166290442845299); (0.0797753462347053, 0.0181169788207070); (0.0964452946481439, 0.0150806394940474); (0.1118170604728969, 0.0167323589413686);
   (0.1297276352208935, 0.0181591362920033); (0.1464311014062288, 0.0151033305774661); (0.1618139324282426, 0.0167354868253357); (0.1797262426209205, 0.0181603700209163);
   (0.1964306875995292, 0.0151039923674243); (0.2118138412794427, 0.0167355779570855); (0.2297262019724791, 0.0181604058823237); (0.2464306753024392, 0.0151040112727299);
   (0.2618138375513803, 0.0167355793509499); (0.2797261981974387, 0.0181604051541077); (0.2964306683331820, 0.0151040020843706); (0.3118138087870633, 0.0167355457822256);
   (0.3297261289467844, 0.0181603578452080); (0.3464304917468633, 0.0151037419973507); (0.3618130434425943, 0.0167346481459403); (0.3797242823489150, 0.0181590949558022);
   (0.3964257837830694, 0.0150968122128679); (0.4117926475355425, 0.0167107294484400); (0.4296750897214267, 0.0181254971370027); (0.4463023235015340, 0.0149188017973516);
   (0.4612667558161791, 0.0160996282293228); (0.4784353574828560, 0.0173367396590118); (0.4939516576118290, 0.0130415997332150); (0.5060483423881711, 0.0130415997332150);
   (0.5215646425171440, 0.0173367396590118); (0.5387332441838210, 0.0160996282293228); (0.5536976764984660, 0.0149188017973516); (0.5703249102785733, 0.0181254971370027);
   (0.5882073524644577, 0.0167107294484400); (0.6035742162169306, 0.0150968122128679); (0.6202757176510851, 0.0181590949558022); (0.6381869565574058, 0.0167346481459403);
   (0.6535695082531368, 0.0151037419973507); (0.6702738710532157, 0.0181603578452080); (0.6881861912129368, 0.0167355457822256); (0.7035693316668180, 0.0151040020843706);
   (0.7202738018025614, 0.0181604051541077); (0.7381861624486197, 0.0167355793509499); (0.7535693246975609, 0.0151040112727299); (0.7702737980275209, 0.0181604058823237);
   (0.7881861587205573, 0.0167355779570855); (0.8035693124004708, 0.0151039923674243); (0.8202737573790796, 0.0181603700209163); (0.8381860675717574, 0.0167354868253357);
   (0.8535688985937713, 0.0151033305774661); (0.8702723647791064, 0.0181591362920033); (0.8881829395271030, 0.0167323589413686); (0.9035547053518562, 0.0150806394940474);
   (0.9202246537652947, 0.0181169788207070); (0.9380766737583267, 0.0166290442845299); (0.9530871951288449, 0.0143406076771227); (0.9686951811936603, 0.0168487290191081);
   (0.9851799699136047, 0.0150764725294812); (0.9969448784573132, 0.0076896745051833)];
  [(0.0029096395644637, 0.0073234995287460); (0.0141143143679956, 0.0143585452661726); (0.0298141131488952, 0.0160464085896268); (0.0446788617820530, 0.0136577215972603);
   (0.0589745964206430, 0.0158371850328876); (0.0759765202235329, 0.0172542655435333); (0.0918526615696713, 0.0143625138038701); (0.1064924385456613, 0.0159355799442135);
   (0.1235501287819123, 0.0172944155162682); (0.1394581918157341, 0.0143841243599012); (0.1541085070757221, 0.0159385588826859); (0.1711678501180708, 0.0172955904980999);
   (0.1870768453403048, 0.0143847546465722); (0.2017274679173443, 0.0159386457111350); (0.2187868590990063, 0.0172956247029039); (0.2346958814383807, 0.0143847729323099);
   (0.2493465128117498, 0.0159386480072855); (0.2664059051154970, 0.0172956253722559); (0.2823149275037379, 0.0143847716701821); (0.2969655550711194, 0.0159386418810176);
   (0.3140249399474440, 0.0172956166781140); (0.3299339425750779, 0.0143847237549207); (0.3445844616549626, 0.0159384764707038); (0.3616436472811642, 0.0172953839487131);
   (0.3775521221870914, 0.0143834453042300); (0.3921997473277021, 0.0159340643162629); (0.4092536186875860, 0.0172891780034345); (0.4251480898425434, 0.0143495845091310);
   (0.4397190342200902, 0.0158171587813203); (0.4566325621015101, 0.0171263742908042); (0.4721999863500740, 0.0136063204886662); (0.4851863524362119, 0.0135696169713618);
   (0.5000000000000000, 0.0155203259908197); (0.5148136475637880, 0.0135696169713618); (0.5278000136499259, 0.0136063204886662); (0.5433674378984898, 0.0171263742908042);
   (0.5602809657799097, 0.0158171587813203); (0.5748519101574566, 0.0143495845091310); (0.5907463813124140, 0.0172891780034345); (0.6078002526722979, 0.0159340643162629);
   (0.6224478778129086, 0.0143834453042300); (0.6383563527188357, 0.0172953839487131); (0.6554155383450372, 0.0159384764707038); (0.6700660574249221, 0.0143847237549207);
   (0.6859750600525558, 0.0172956166781140); (0.7030344449288806, 0.0159386418810176); (0.7176850724962620, 0.0143847716701821); (0.7335940948845029, 0.0172956253722559);
   (0.7506534871882502, 0.0159386480072855); (0.7653041185616193, 0.0143847729323099); (0.7812131409009936, 0.0172956247029039); (0.7982725320826557, 0.0159386457111350);
   (0.8129231546596951, 0.0143847546465722); (0.8288321498819291, 0.0172955904980999); (0.8458914929242778, 0.0159385588826859); (0.8605418081842658, 0.0143841243599012);
   (0.8764498712180876, 0.0172944155162682); (0.8935075614543386, 0.0159355799442135); (0.9081473384303287, 0.0143625138038701); (0.9240234797764670, 0.0172542655435333);
   (0.9410254035793570, 0.0158371850328876); (0.9553211382179470, 0.0136577215972603); (0.9701858868511047, 0.0160464085896268); (0.9858856856320044, 0.0143585452661726);
   (0.9970903604355363, 0.0073234995287460)];
  [(0.0027773832206245, 0.0069906131865303); (0.0134727546239958, 0.0137058841177102); (0.0284589261875818, 0.0153170263810074); (0.0426480044283234, 0.0130369160701123);
   (0.0562939329469777, 0.0151173129859385); (0.0725230420315549, 0.0164699807461005); (0.0876775405892336, 0.0137096722673334); (0.1016518731572305, 0.0152112354013045);
   (0.1179342138373001, 0.0165083057200879); (0.1331191830968884, 0.0137303005254359); (0.1471035749361392, 0.0152140789337339); (0.1633874932950592, 0.0165094272940081);
   (0.1785733523716609, 0.0137309021646552); (0.1925580375634030, 0.0152141618221387); (0.2088420018815604, 0.0165094599534797); (0.2240278868640955, 0.0137309196710464);
   (0.2380125805696401, 0.0152141641927647); (0.2542965461743125, 0.0165094608440402); (0.2694824317741876, 0.0137309198489437); (0.2834671249764885, 0.0152141631165951);
   (0.2997510892391446, 0.0165094592586979); (0.3149369712026971, 0.0137309110006441); (0.3289216443498311, 0.0152141325313423); (0.3452055717688939, 0.0165094162237227);
   (0.3603913561332417, 0.0137306745434785); (0.3743754940386625, 0.0152133164963690); (0.3906584384989871, 0.0165082681416619); (0.4058416216209643, 0.0137243747389834);
   (0.4198114977595823, 0.0151915722258563); (0.4360682633831144, 0.0164777246700032); (0.4511839304559399, 0.0135625470885018); (0.4647879598328901, 0.0146360256630208);
   (0.4803957795298691, 0.0157606724172835); (0.4945015069198445, 0.0118559997574682); (0.5054984930801555, 0.0118559997574682); (0.5196042204701310, 0.0157606724172835);
   (0.5352120401671100, 0.0146360256630208); (0.5488160695440601, 0.0135625470885018); (0.5639317366168857, 0.0164777246700032); (0.5801885022404177, 0.0151915722258563);
   (0.5941583783790357, 0.0137243747389834); (0.6093415615010129, 0.0165082681416619); (0.6256245059613376, 0.0152133164963690); (0.6396086438667583, 0.0137306745434785);
   (0.6547944282311061, 0.0165094162237227); (0.6710783556501689, 0.0152141325313423); (0.6850630287973030, 0.0137309110006441); (0.7002489107608554, 0.0165094592586979);
   (0.7165328750235116, 0.0152141631165951); (0.7305175682258124, 0.0137309198489437); (0.7457034538256876, 0.0165094608440402); (0.7619874194303599, 0.0152141641927647);
   (0.7759721131359044, 0.0137309196710464); (0.7911579981184398, 0.0165094599534797); (0.8074419624365972, 0.0152141618221387); (0.8214266476283392, 0.0137309021646552);
   (0.8366125067049409, 0.0165094272940081); (0.8528964250638609, 0.0152140789337339); (0.8668808169031116, 0.0137303005254359); (0.8820657861626998, 0.0165083057200879);
   (0.8983481268427695, 0.0152112354013045); (0.9123224594107664, 0.0137096722673334); (0.9274769579684451, 0.0164699807461005); (0.9437060670530224, 0.0151173129859385);
   (0.9573519955716767, 0.0130369160701123); (0.9715410738124183, 0.0153170263810074); (0.9865272453760042, 0.0137058841177102); (0.9972226167793756, 0.0069906131865303)];
  [(0.0026566274284234, 0.0066866734827681); (0.0128869826838221, 0.0131099761125924); (0.0272215815707305, 0.0146510687122680); (0.0407937433662224, 0.0124700936322813);
   (0.0538463706449353, 0.0144600385082891); (0.0693698662910527, 0.0157538946267049); (0.0838654736070934, 0.0131135995600585); (0.0972322264982220, 0.0145498773403800);
   (0.1128066393226386, 0.0157905532974779); (0.1273313925274680, 0.0131333309373875); (0.1407077673302613, 0.0145525972410113); (0.1562836892388518, 0.0157916261073802);
   (0.1708092935731469, 0.0131339064187399); (0.1841859489747904, 0.0145526765268148); (0.1997619148458872, 0.0157916573486229); (0.2142875439637355, 0.0131339231735892);
   (0.2276642075307591, 0.0145526788275194); (0.2432401746723664, 0.0157916582471040); (0.2577658044864930, 0.0131339236000292); (0.2711424681522559, 0.0145526786825691);
   (0.2867184350755585, 0.0157916579750684); (0.3012440642336605, 0.0131339219739383); (0.3146207241934141, 0.0145526730237560); (0.3301966842989698, 0.0157916500112231);
   (0.3447222953943777, 0.0131338782114283); (0.3580988562936046, 0.0145525219950474); (0.3736746344740811, 0.0157914375184127); (0.3881997637360325, 0.0131327109299612);
   (0.4015736823426829, 0.0145484935061547); (0.4171446083669256, 0.0157857712205278); (0.4316569515953655, 0.0131017945518156); (0.4449608573313866, 0.0144417536699012);
   (0.4604036436579005, 0.0156371243524734); (0.4746173788413719, 0.0124231621853039); (0.4864744957026284, 0.0123896502781999); (0.5000000000000000, 0.0141707324264006);
   (0.5135255042973716, 0.0123896502781999); (0.5253826211586281, 0.0124231621853039); (0.5395963563420995, 0.0156371243524734); (0.5550391426686133, 0.0144417536699012);
   (0.5683430484046345, 0.0131017945518156); (0.5828553916330743, 0.0157857712205278); (0.5984263176573170, 0.0145484935061547); (0.6118002362639675, 0.0131327109299612);
   (0.6263253655259189, 0.0157914375184127); (0.6419011437063954, 0.0145525219950474); (0.6552777046056223, 0.0131338782114283); (0.6698033157010302, 0.0157916500112231);
   (0.6853792758065859, 0.0145526730237560); (0.6987559357663394, 0.0131339219739383); (0.7132815649244415, 0.0157916579750684); (0.7288575318477439, 0.0145526786825691);
   (0.7422341955135070, 0.0131339236000292); (0.7567598253276336, 0.0157916582471040); (0.7723357924692410, 0.0145526788275194); (0.7857124560362645, 0.0131339231735892);
   (0.8002380851541129, 0.0157916573486229); (0.8158140510252097, 0.0145526765268148); (0.8291907064268531, 0.0131339064187399); (0.8437163107611482, 0.0157916261073802);
   (0.8592922326697388, 0.0145525972410113); (0.8726686074725321, 0.0131333309373875); (0.8871933606773613, 0.0157905532974779); (0.9027677735017779, 0.0145498773403800);
   (0.9161345263929066, 0.0131135995600585); (0.9306301337089474, 0.0157538946267049); (0.9461536293550646, 0.0144600385082891); (0.9592062566337777, 0.0124700936322813);
   (0.9727784184292696, 0.0146510687122680); (0.9871130173161780, 0.0131099761125924); (0.9973433725715767, 0.0066866734827681)];
  [(0.0025459346189058, 0.0064080620876528); (0.0123500250719961, 0.0125637271079010); (0.0260873490052834, 0.0140406075159235); (0.0390940040592964, 0.0119505063976029);
   (0.0516027718680630, 0.0138575369037770); (0.0664794551955921, 0.0150974823505922); (0.0803710788734645, 0.0125671995783895); (0.0931808837274631, 0.0139436324511979);
   (0.1081063626841960, 0.0151326135767502); (0.1220259178388253, 0.0125861088149990); (0.1348449436915081, 0.0139462390226448); (0.1497718688539180, 0.0151336416862520);
   (0.1636922396743129, 0.0125866603180284); (0.1765115344343781, 0.0139463150051035); (0.1914385017278008, 0.0151336716261003); (0.2053588962998357, 0.0125866763765395);
   (0.2181781988890872, 0.0139463172160901); (0.2331051674074842, 0.0151336724957902); (0.2470255626663935, 0.0125866768327160); (0.2598448654578009, 0.0139463172411215);
   (0.2747718339644701, 0.0151336724657535); (0.2886922291178259, 0.0125866765418133); (0.3015115312265735, 0.0139463161920879); (0.3164384984683817, 0.0151336709878789);
   (0.3303588902688911, 0.0125866684176535); (0.3431781739872906, 0.0139462881537850); (0.3581051074547952, 0.0151336315384340); (0.3720254097887977, 0.0125864516648669);
   (0.3848442028687724, 0.0139455401216731); (0.3997702352907375, 0.0151325791298573); (0.4136881531525504, 0.0125806768440684); (0.4264938729462837, 0.0139256078737017);
   (0.4413959081011881, 0.0151045809475029); (0.4552519362512782, 0.0124323348311267); (0.4677222965134825, 0.0134163568577691); (0.4820294645690466, 0.0144472830491766);
   (0.4949597146765241, 0.0108679997776792); (0.5050402853234759, 0.0108679997776792); (0.5179705354309534, 0.0144472830491766); (0.5322777034865174, 0.0134163568577691);
   (0.5447480637487218, 0.0124323348311267); (0.5586040918988118, 0.0151045809475029); (0.5735061270537163, 0.0139256078737017); (0.5863118468474495, 0.0125806768440684);
   (0.6002297647092625, 0.0151325791298573); (0.6151557971312276, 0.0139455401216731); (0.6279745902112023, 0.0125864516648669); (0.6418948925452048, 0.0151336315384340);
   (0.6568218260127093, 0.0139462881537850); (0.6696411097311088, 0.0125866684176535); (0.6835615015316182, 0.0151336709878789); (0.6984884687734265, 0.0139463161920879);
   (0.7113077708821740, 0.0125866765418133); (0.7252281660355299, 0.0151336724657535); (0.7401551345421989, 0.0139463172411215); (0.7529744373336065, 0.0125866768327160);
   (0.7668948325925157, 0.0151336724957902); (0.7818218011109127, 0.0139463172160901); (0.7946411037001644, 0.0125866763765395); (0.8085614982721993, 0.0151336716261003);
   (0.8234884655656218, 0.0139463150051035); (0.8363077603256871, 0.0125866603180284); (0.8502281311460820, 0.0151336416862520); (0.8651550563084919, 0.0139462390226448);
   (0.8779740821611748, 0.0125861088149990); (0.8918936373158040, 0.0151326135767502); (0.9068191162725370, 0.0139436324511979); (0.9196289211265355, 0.0125671995783895);
   (0.9335205448044077, 0.0150974823505922); (0.9483972281319369, 0.0138575369037770); (0.9609059959407036, 0.0119505063976029); (0.9739126509947167, 0.0140406075159235);
   (0.9876499749280039, 0.0125637271079010); (0.9974540653810943, 0.0064080620876528)];
  [(0.0024440972341495, 0.0061517396041466); (0.0118560240691163, 0.0120611780235850); (0.0250438550450720, 0.0134789832152866); (0.0375302438969246, 0.0114724861416988);
   (0.0495386609933405, 0.0133032354276259); (0.0638202769877685, 0.0144935830565685); (0.0771562357185260, 0.0120645115952540); (0.0894536483783646, 0.0133858871531500);
   (0.1037821081768283, 0.0145273090336802); (0.1171448811252726, 0.0120826644623995); (0.1294511459438492, 0.0133883894617406); (0.1437809940997648, 0.0145282960188042);
   (0.1571445500873491, 0.0120831939053201); (0.1694510730570410, 0.0133884624049439); (0.1837809616587803, 0.0145283247611189); (0.1971445404480759, 0.0120832093218221);
   (0.2094510709345363, 0.0133884645286341); (0.2237809607136279, 0.0145283255976295); (0.2371445401659704, 0.0120832097685886); (0.2494510708665040, 0.0133884645831616);
   (0.2637809606710734, 0.0145283256117037); (0.2771445401194014, 0.0120832097250972); (0.2894510706982762, 0.0133884643897643); (0.3037809602687130, 0.0145283253377725);
   (0.3171445390947297, 0.0120832082164038); (0.3294510662578886, 0.0133884591819080); (0.3437809495550289, 0.0145283180103459); (0.3571445117628205, 0.0120831679545251);
   (0.3694509477901148, 0.0133883202354452); (0.3837806637161539, 0.0145281225169403); (0.3971437826371497, 0.0120820940555646); (0.4094477877552682, 0.0133846140256624);
   (0.4237730396975715, 0.0145229095228856); (0.4371243954677362, 0.0120536509876704); (0.4493639887448757, 0.0132864133763091); (0.4635713521652685, 0.0143861544042755);
   (0.4766479885340622, 0.0114293092104796); (0.4875565360464181, 0.0113984782559439); (0.5000000000000000, 0.0130370738322886); (0.5124434639535820, 0.0113984782559439);
   (0.5233520114659378, 0.0114293092104796); (0.5364286478347315, 0.0143861544042755); (0.5506360112551243, 0.0132864133763091); (0.5628756045322638, 0.0120536509876704);
   (0.5762269603024285, 0.0145229095228856); (0.5905522122447318, 0.0133846140256624); (0.6028562173628503, 0.0120820940555646); (0.6162193362838461, 0.0145281225169403);
   (0.6305490522098852, 0.0133883202354452); (0.6428554882371794, 0.0120831679545251); (0.6562190504449711, 0.0145283180103459); (0.6705489337421113, 0.0133884591819080);
   (0.6828554609052704, 0.0120832082164038); (0.6962190397312870, 0.0145283253377725); (0.7105489293017239, 0.0133884643897643); (0.7228554598805986, 0.0120832097250972);
   (0.7362190393289266, 0.0145283256117037); (0.7505489291334960, 0.0133884645831616); (0.7628554598340296, 0.0120832097685886); (0.7762190392863721, 0.0145283255976295);
   (0.7905489290654637, 0.0133884645286341); (0.8028554595519242, 0.0120832093218221); (0.8162190383412197, 0.0145283247611189); (0.8305489269429590, 0.0133884624049439);
   (0.8428554499126508, 0.0120831939053201); (0.8562190059002353, 0.0145282960188042); (0.8705488540561508, 0.0133883894617406); (0.8828551188747273, 0.0120826644623995);
   (0.8962178918231718, 0.0145273090336802); (0.9105463516216353, 0.0133858871531500); (0.9228437642814740, 0.0120645115952540); (0.9361797230122315, 0.0144935830565685);
   (0.9504613390066595, 0.0133032354276259); (0.9624697561030755, 0.0114724861416988); (0.9749561449549280, 0.0134789832152866); (0.9881439759308838, 0.0120611780235850);
   (0.9975559027658506, 0.0061517396041466)];
  [(0.0023500934943746, 0.0059151342347564); (0.0114000231433810, 0.0115972865611394); (0.0240806298510308, 0.0129605607839294); (0.0360867729778121, 0.0110312366747104);
   (0.0476333278782120, 0.0127915725265634); (0.0613656509497774, 0.0139361375543928); (0.0741886881908904, 0.0116004919185134); (0.0860131234407352, 0.0128710453395673);
   (0.0997904886315657, 0.0139685663785387); (0.1126393087743006, 0.0116179465984611); (0.1244722557152399, 0.0128734514055201); (0.1382509558651591, 0.0139695154026968);
   (0.1511005289301450, 0.0116184556781948); (0.1629337240933157, 0.0128735215432235); (0.1767124631334596, 0.0139695430395491); (0.1895620581231933, 0.0116184705018160);
   (0.2013952605141655, 0.0128735235854460); (0.2151740006866351, 0.0139695438441853); (0.2280235963145923, 0.0116184709330428); (0.2398567989151244, 0.0128735236435483);
   (0.2536355391189242, 0.0139695438656986); (0.2664851347611207, 0.0116184709350747); (0.2783183373439324, 0.0128735236089205); (0.2920970775048947, 0.0139695438152239);
   (0.3049466730316105, 0.0116184706543474); (0.3167798749783253, 0.0128735226389008); (0.3305586139707914, 0.0139695424503696); (0.3434082064020467, 0.0116184631547677);
   (0.3552413913728822, 0.0128734967573415); (0.3690200991890411, 0.0139695060354781); (0.3818696090358131, 0.0116182630752620); (0.3937023411096360, 0.0128728062661599);
   (0.4074802171914499, 0.0139685345814068); (0.4203275259869696, 0.0116129324714478); (0.4321481904119542, 0.0128544072680323); (0.4459039151703276, 0.0139426901053873);
   (0.4586940950011799, 0.0114760013825785); (0.4702051967816762, 0.0123843294071715); (0.4834118134483507, 0.0133359535838553); (0.4953474289321761, 0.0100319997947808);
   (0.5046525710678239, 0.0100319997947808); (0.5165881865516493, 0.0133359535838553); (0.5297948032183238, 0.0123843294071715); (0.5413059049988201, 0.0114760013825785);
   (0.5540960848296725, 0.0139426901053873); (0.5678518095880458, 0.0128544072680323); (0.5796724740130305, 0.0116129324714478); (0.5925197828085501, 0.0139685345814068);
   (0.6062976588903640, 0.0128728062661599); (0.6181303909641871, 0.0116182630752620); (0.6309799008109589, 0.0139695060354781); (0.6447586086271179, 0.0128734967573415);
   (0.6565917935979534, 0.0116184631547677); (0.6694413860292086, 0.0139695424503696); (0.6832201250216748, 0.0128735226389008); (0.6950533269683895, 0.0116184706543474);
   (0.7079029224951053, 0.0139695438152239); (0.7216816626560677, 0.0128735236089205); (0.7335148652388792, 0.0116184709350747); (0.7463644608810758, 0.0139695438656986);
   (0.7601432010848755, 0.0128735236435483); (0.7719764036854078, 0.0116184709330428); (0.7848259993133649, 0.0139695438441853); (0.7986047394858345, 0.0128735235854460);
   (0.8104379418768067, 0.0116184705018160); (0.8232875368665404, 0.0139695430395491); (0.8370662759066845, 0.0128735215432235); (0.8488994710698550, 0.0116184556781948);
   (0.8617490441348410, 0.0139695154026968); (0.8755277442847602, 0.0128734514055201); (0.8873606912256995, 0.0116179465984611); (0.9002095113684344, 0.0139685663785387);
   (0.9139868765592648, 0.0128710453395673); (0.9258113118091096, 0.0116004919185134); (0.9386343490502226, 0.0139361375543928); (0.9523666721217880, 0.0127915725265634);
   (0.9639132270221880, 0.0110312366747104); (0.9759193701489693, 0.0129605607839294); (0.9885999768566190, 0.0115972865611394); (0.9976499065056256, 0.0059151342347564)];
  [(0.0022630529945829, 0.0056960551890247); (0.0109778000639966, 0.0111677574292454); (0.0231887546713630, 0.0124805400141542); (0.0347502258304857, 0.0106226723534248);
   (0.0458691305493893, 0.0123178105811351); (0.0590928490627486, 0.0134199843116375); (0.0714409589986352, 0.0111708440696796); (0.0828274522021894, 0.0123943399566204);
   (0.0960945446081744, 0.0134512120682225); (0.1084674825234006, 0.0111876522799996); (0.1198621721702310, 0.0123966569090195); (0.1331305500923755, 0.0134521259433378);
   (0.1455042130438436, 0.0111881425049288); (0.1568991417194905, 0.0123967244490316); (0.1701675570914828, 0.0134521525566050); (0.1825412411556757, 0.0111881567795384);
   (0.1939361767914538, 0.0123967264156559); (0.2072045932538815, 0.0134521533314957); (0.2195782779327866, 0.0111881571951006); (0.2309732137710573, 0.0123967264726647);
   (0.2442416302649299, 0.0134521533537014); (0.2566153149609243, 0.0111881572052397); (0.2680102508006525, 0.0123967264675577); (0.2812786672872894, 0.0134521533448270);
   (0.2936523519621883, 0.0111881571532201); (0.3050472876835405, 0.0123967262868673); (0.3183157039524904, 0.0134521530905492); (0.3306893880506692, 0.0111881557559397);
   (0.3420843206091547, 0.0123967214647310); (0.3553527310694705, 0.0134521463058764); (0.3677263997803892, 0.0111881184764124); (0.3791212479538099, 0.0123965928105974);
   (0.3923895034408832, 0.0134519652934632); (0.4047627617010645, 0.0111871241255228); (0.4161553590326557, 0.0123931611348726); (0.4294194812014551, 0.0134471384471163);
   (0.4417818476553113, 0.0111607879515467); (0.4531148043934034, 0.0123022346076936); (0.4662697705233967, 0.0133205133372921); (0.4783777671611686, 0.0105826937134070);
   (0.4884782741170537, 0.0105541465332814); (0.5000000000000000, 0.0120713646595265); (0.5115217258829462, 0.0105541465332814); (0.5216222328388312, 0.0105826937134070);
   (0.5337302294766032, 0.0133205133372921); (0.5468851956065965, 0.0123022346076936); (0.5582181523446886, 0.0111607879515467); (0.5705805187985449, 0.0134471384471163);
   (0.5838446409673442, 0.0123931611348726); (0.5952372382989355, 0.0111871241255228); (0.6076104965591167, 0.0134519652934632); (0.6208787520461900, 0.0123965928105974);
   (0.6322736002196109, 0.0111881184764124); (0.6446472689305295, 0.0134521463058764); (0.6579156793908453, 0.0123967214647310); (0.6693106119493307, 0.0111881557559397);
   (0.6816842960475095, 0.0134521530905492); (0.6949527123164594, 0.0123967262868673); (0.7063476480378116, 0.0111881571532201); (0.7187213327127105, 0.0134521533448270);
   (0.7319897491993475, 0.0123967264675577); (0.7433846850390757, 0.0111881572052397); (0.7557583697350700, 0.0134521533537014); (0.7690267862289426, 0.0123967264726647);
   (0.7804217220672133, 0.0111881571951006); (0.7927954067461184, 0.0134521533314957); (0.8060638232085462, 0.0123967264156559); (0.8174587588443242, 0.0111881567795384);
   (0.8298324429085171, 0.0134521525566050); (0.8431008582805095, 0.0123967244490316); (0.8544957869561562, 0.0111881425049288); (0.8668694499076244, 0.0134521259433378);
   (0.8801378278297690, 0.0123966569090195); (0.8915325174765993, 0.0111876522799996); (0.9039054553918257, 0.0134512120682225); (0.9171725477978104, 0.0123943399566204);
   (0.9285590410013648, 0.0111708440696796); (0.9409071509372513, 0.0134199843116375); (0.9541308694506105, 0.0123178105811351); (0.9652497741695143, 0.0106226723534248);
   (0.9768112453286371, 0.0124805400141542); (0.9890221999360034, 0.0111677574292454); (0.9977369470054172, 0.0056960551890247)];
  [(0.0021822296733478, 0.0054926246465595); (0.0105857357759967, 0.0107689089496295); (0.0223605848616714, 0.0120348064422201); (0.0335091463365398, 0.0102432911979454);
   (0.0442309473154825, 0.0118778887746660); (0.0569823901676504, 0.0129406991576504); (0.0688894961772553, 0.0107718853529053); (0.0798693289092541, 0.0119516849581697);
   (0.0926625965864539, 0.0129708116372145); (0.1045936438618506, 0.0107880932699996); (0.1155813803070085, 0.0119539191622688); (0.1283758875890764, 0.0129716928739329);
   (0.1403076340065636, 0.0107885659868957); (0.1512956009437946, 0.0119539842901379); (0.1640901443382162, 0.0129717185367266); (0.1760219111144031, 0.0107885797517000);
   (0.1870098847631941, 0.0119539861865330); (0.1998044292091158, 0.0129717192839531); (0.2117361965780846, 0.0107885801524778); (0.2227241704222659, 0.0119539862417032);
   (0.2355187148987472, 0.0129717193056435); (0.2474504822848248, 0.0107885801637810); (0.2584384561338661, 0.0119539862420455); (0.2712330006097146, 0.0129717193044965);
   (0.2831647679922568, 0.0107885801543377); (0.2941527418193190, 0.0119539862083301); (0.3069472862545243, 0.0129717192570121); (0.3188790535293464, 0.0107885798933325);
   (0.3298670267655863, 0.0119539853075521); (0.3426615701157343, 0.0129717179896294); (0.3545933345161860, 0.0107885729294275); (0.3655812919891048, 0.0119539612746743);
   (0.3783758063898238, 0.0129716841758011); (0.3903074941046835, 0.0107883871413148); (0.4012950310303763, 0.0119533201042913); (0.4140887731063463, 0.0129707821113063);
   (0.4260184169879003, 0.0107834372949158); (0.4369947482396717, 0.0119362353203157); (0.4497679212295898, 0.0129467836692882); (0.4616445167868098, 0.0106562869981086);
   (0.4723333970115565, 0.0114997344495164); (0.4845966839163257, 0.0123833854707228); (0.4956797554370206, 0.0093154283808679); (0.5043202445629793, 0.0093154283808679);
   (0.5154033160836743, 0.0123833854707228); (0.5276666029884435, 0.0114997344495164); (0.5383554832131900, 0.0106562869981086); (0.5502320787704101, 0.0129467836692882);
   (0.5630052517603282, 0.0119362353203157); (0.5739815830120997, 0.0107834372949158); (0.5859112268936536, 0.0129707821113063); (0.5987049689696237, 0.0119533201042913);
   (0.6096925058953165, 0.0107883871413148); (0.6216241936101762, 0.0129716841758011); (0.6344187080108951, 0.0119539612746743); (0.6454066654838139, 0.0107885729294275);
   (0.6573384298842656, 0.0129717179896294); (0.6701329732344137, 0.0119539853075521); (0.6811209464706535, 0.0107885798933325); (0.6930527137454757, 0.0129717192570121);
   (0.7058472581806809, 0.0119539862083301); (0.7168352320077431, 0.0107885801543377); (0.7287669993902854, 0.0129717193044965); (0.7415615438661338, 0.0119539862420455);
   (0.7525495177151752, 0.0107885801637810); (0.7644812851012528, 0.0129717193056435); (0.7772758295777341, 0.0119539862417032); (0.7882638034219154, 0.0107885801524778);
   (0.8001955707908840, 0.0129717192839531); (0.8129901152368058, 0.0119539861865330); (0.8239780888855968, 0.0107885797517000); (0.8359098556617838, 0.0129717185367266);
   (0.8487043990562053, 0.0119539842901379); (0.8596923659934365, 0.0107885659868957); (0.8716241124109235, 0.0129716928739329); (0.8844186196929915, 0.0119539191622688);
   (0.8954063561381493, 0.0107880932699996); (0.9073374034135462, 0.0129708116372145); (0.9201306710907458, 0.0119516849581697); (0.9311105038227445, 0.0107718853529053);
   (0.9430176098323495, 0.0129406991576504); (0.9557690526845174, 0.0118778887746660); (0.9664908536634602, 0.0102432911979454); (0.9776394151383285, 0.0120348064422201);
   (0.9894142642240032, 0.0107689089496295); (0.9978177703266522, 0.0054926246465595)];
  [(0.0021069803742668, 0.0053032237966781); (0.0102207104044106, 0.0103975672617112); (0.0215895302112690, 0.0116198131166263); (0.0323536585318315, 0.0098900742600852);
   (0.0427057422356383, 0.0114683064031258); (0.0550174801618694, 0.0124944681522142); (0.0665139963090741, 0.0104004410303913); (0.0771152141192798, 0.0115395578906466);
   (0.0894673346351968, 0.0125235422704140); (0.1009869664873040, 0.0104160900537928); (0.1115958154688358, 0.0115417150532250); (0.1239491328446255, 0.0125243931196593);
   (0.1354694397304752, 0.0104165464701062); (0.1460785112560776, 0.0115417779353056); (0.1584318634989675, 0.0125244178975292); (0.1699521900414929, 0.0104165597602625);
   (0.1805612680472231, 0.0115417797663092); (0.1929146213053562, 0.0125244186189912); (0.2044349484202272, 0.0104165601472311); (0.2150440266146342, 0.0115417798196138);
   (0.2273973799023176, 0.0125244186399856); (0.2389177070338253, 0.0104165601584301); (0.2495267852335712, 0.0115417798209298); (0.2618801385218306, 0.0125244186402647);
   (0.2734004656530692, 0.0104165601569306); (0.2840095438488383, 0.0115417798146679); (0.2963628971295252, 0.0125244186314085); (0.3078832242406521, 0.0104165601081800);
   (0.3184923023260537, 0.0115417796463950); (0.3308456554040423, 0.0125244183946498); (0.3423659819782091, 0.0104165588072545); (0.3529750571188681, 0.0115417751568186);
   (0.3653284047888174, 0.0125244120778850); (0.3768487170369141, 0.0104165240987288); (0.3874577136121679, 0.0115416553753838); (0.3998109169966844, 0.0125242435490865);
   (0.4113308471009911, 0.0104155983237626); (0.4219377480648864, 0.0115384603669503); (0.4342871031875616, 0.0125197495886945); (0.4457968926446002, 0.0103910784376469);
   (0.4563482661593756, 0.0114538046347492); (0.4685959932459211, 0.0124018572450651); (0.4798689556328122, 0.0098528527676548); (0.4892728759020845, 0.0098262743585724);
   (0.5000000000000000, 0.0112388567519729); (0.5107271240979154, 0.0098262743585724); (0.5201310443671878, 0.0098528527676548); (0.5314040067540788, 0.0124018572450651);
   (0.5436517338406244, 0.0114538046347492); (0.5542031073553998, 0.0103910784376469); (0.5657128968124383, 0.0125197495886945); (0.5780622519351135, 0.0115384603669503);
   (0.5886691528990089, 0.0104155983237626); (0.6001890830033156, 0.0125242435490865); (0.6125422863878321, 0.0115416553753838); (0.6231512829630860, 0.0104165240987288);
   (0.6346715952111825, 0.0125244120778850); (0.6470249428811318, 0.0115417751568186); (0.6576340180217909, 0.0104165588072545); (0.6691543445959577, 0.0125244183946498);
   (0.6815076976739463, 0.0115417796463950); (0.6921167757593478, 0.0104165601081800); (0.7036371028704748, 0.0125244186314085); (0.7159904561511619, 0.0115417798146679);
   (0.7265995343469307, 0.0104165601569306); (0.7381198614781694, 0.0125244186402647); (0.7504732147664288, 0.0115417798209298); (0.7610822929661747, 0.0104165601584301);
   (0.7726026200976824, 0.0125244186399856); (0.7849559733853657, 0.0115417798196138); (0.7955650515797729, 0.0104165601472311); (0.8070853786946437, 0.0125244186189912);
   (0.8194387319527768, 0.0115417797663092); (0.8300478099585070, 0.0104165597602625); (0.8415681365010326, 0.0125244178975292); (0.8539214887439224, 0.0115417779353056);
   (0.8645305602695247, 0.0104165464701062); (0.8760508671553745, 0.0125243931196593); (0.8884041845311642, 0.0115417150532250); (0.8990130335126960, 0.0104160900537928);
   (0.9105326653648032, 0.0125235422704140); (0.9228847858807201, 0.0115395578906466); (0.9334860036909258, 0.0104004410303913); (0.9449825198381305, 0.0124944681522142);
   (0.9572942577643616, 0.0114683064031258); (0.9676463414681684, 0.0098900742600852); (0.9784104697887310, 0.0116198131166263); (0.9897792895955894, 0.0103975672617112);
   (0.9978930196257332, 0.0053032237966781)];
  [(0.0020367476951246, 0.0051264496701222); (0.0098800200575969, 0.0100509816863208); (0.0208698792042267, 0.0112324860127388); (0.0312752032474371, 0.0095604051180823);
   (0.0412822174944504, 0.0110860295230216); (0.0531835641564737, 0.0120779858804738); (0.0642968630987716, 0.0100537596627116); (0.0745447069819705, 0.0111549059609584);
   (0.0864850901473569, 0.0121060908614002); (0.0976207342710605, 0.0100688870519997); (0.1078759549532079, 0.0111569912181175); (0.1198174950831380, 0.0121069133490040);
   (0.1309537917394594, 0.0100693282544360); (0.1412092275475417, 0.0111570520041288); (0.1531508013823352, 0.0121069373009449); (0.1642871170401099, 0.0100693411015872);
   (0.1745425591123159, 0.0111570537740991); (0.1864841339285116, 0.0121069379983585); (0.1976204501395543, 0.0100693414756588); (0.2078758923941526, 0.0111570538256339);
   (0.2198174672389218, 0.0121069380186629); (0.2309537834660688, 0.0100693414865379); (0.2412092257259487, 0.0111570538270902); (0.2531508005714967, 0.0121069380191918);
   (0.2642871167989715, 0.0100693414865128); (0.2745425590582314, 0.0111570538259528); (0.2864841339023809, 0.0121069380175473); (0.2976204501261006, 0.0100693414773911);
   (0.3078758923646964, 0.0111570537944427); (0.3198174671708888, 0.0121069379732118); (0.3309537832940565, 0.0100693412337773); (0.3412092249812139, 0.0111570529537153);
   (0.3531507987746853, 0.0121069367903208); (0.3642871122151069, 0.0100693347341323); (0.3745425391898312, 0.0111570305230293); (0.3864840859638355, 0.0121069052307477);
   (0.3976203278310380, 0.0100691613318938); (0.4078753622950179, 0.0111564320973385); (0.4198161882325899, 0.0121060633038859); (0.4309505225220403, 0.0100645414752547);
   (0.4411950983570270, 0.0111404862989613); (0.4531167264809505, 0.0120836647580023); (0.4642015490010226, 0.0099458678649013); (0.4741778372107860, 0.0107330854862153);
   (0.4856235716552373, 0.0115578264393412); (0.4959677717412193, 0.0086943998221434); (0.5040322282587807, 0.0086943998221434); (0.5143764283447627, 0.0115578264393412);
   (0.5258221627892139, 0.0107330854862153); (0.5357984509989774, 0.0099458678649013); (0.5468832735190494, 0.0120836647580023); (0.5588049016429729, 0.0111404862989613);
   (0.5690494774779596, 0.0100645414752547); (0.5801838117674101, 0.0121060633038859); (0.5921246377049821, 0.0111564320973385); (0.6023796721689620, 0.0100691613318938);
   (0.6135159140361645, 0.0121069052307477); (0.6254574608101688, 0.0111570305230293); (0.6357128877848930, 0.0100693347341323); (0.6468492012253146, 0.0121069367903208);
   (0.6587907750187861, 0.0111570529537153); (0.6690462167059434, 0.0100693412337773); (0.6801825328291112, 0.0121069379732118); (0.6921241076353035, 0.0111570537944427);
   (0.7023795498738995, 0.0100693414773911); (0.7135158660976192, 0.0121069380175473); (0.7254574409417686, 0.0111570538259528); (0.7357128832010285, 0.0100693414865128);
   (0.7468491994285033, 0.0121069380191918); (0.7587907742740512, 0.0111570538270902); (0.7690462165339312, 0.0100693414865379); (0.7801825327610782, 0.0121069380186629);
   (0.7921241076058474, 0.0111570538256339); (0.8023795498604457, 0.0100693414756588); (0.8135158660714885, 0.0121069379983585); (0.8254574408876840, 0.0111570537740991);
   (0.8357128829598900, 0.0100693411015872); (0.8468491986176648, 0.0121069373009449); (0.8587907724524583, 0.0111570520041288); (0.8690462082605406, 0.0100693282544360);
   (0.8801825049168620, 0.0121069133490040); (0.8921240450467921, 0.0111569912181175); (0.9023792657289395, 0.0100688870519997); (0.9135149098526431, 0.0121060908614002);
   (0.9254552930180294, 0.0111549059609584); (0.9357031369012283, 0.0100537596627116); (0.9468164358435263, 0.0120779858804738); (0.9587177825055496, 0.0110860295230216);
   (0.9687247967525628, 0.0095604051180823); (0.9791301207957733, 0.0112324860127388); (0.9901199799424031, 0.0100509816863208); (0.9979632523048755, 0.0051264496701222)];
  [(0.0019710461565722, 0.0049610803259247); (0.0095613097331583, 0.0097267564706331); (0.0201966572944129, 0.0108701477542633); (0.0302663257233263, 0.0092520049529829);
   (0.0399505330591455, 0.0107284156674403); (0.0514679653127165, 0.0116883734327165); (0.0622227707407468, 0.0097294448348822); (0.0721400390148102, 0.0107950702847984);
   (0.0836952485297003, 0.0117155718013551); (0.0944716783268328, 0.0097440842438706); (0.1043960854385883, 0.0107970882755976); (0.1159524145965851, 0.0117163677571006);
   (0.1267294758768961, 0.0097445112139703); (0.1366540911750403, 0.0107971471007698); (0.1482104529506470, 0.0117163909363983); (0.1589875326194612, 0.0097445236466973);
   (0.1689121539796606, 0.0107971488136444); (0.1804685167050113, 0.0117163916113148); (0.1912455969092464, 0.0097445240087025); (0.2011702184459552, 0.0107971488635180);
   (0.2127265811989593, 0.0117163916309659); (0.2235036614187833, 0.0097445240192406); (0.2334282829606261, 0.0107971488649619); (0.2449846457144255, 0.0117163916315265);
   (0.2557617259346769, 0.0097445240194834); (0.2656863474765244, 0.0107971488647830); (0.2772427102300807, 0.0117163916312320); (0.2880197904496398, 0.0097445240177827);
   (0.2979444119876216, 0.0107971488588841); (0.3095007747340714, 0.0117163916229310); (0.3202778549348034, 0.0097445239721687); (0.3302024763695340, 0.0107971487014664);
   (0.3417588389263621, 0.0117163914014466); (0.3525359186247762, 0.0097445227551735); (0.3624605373047476, 0.0107971445015399); (0.3740168948024420, 0.0117163854922150);
   (0.3847939610990486, 0.0097444902859076); (0.3947185062823506, 0.0107970324479397); (0.4062747288033499, 0.0117162278362422); (0.4170514376106046, 0.0097436242383586);
   (0.4269740223832808, 0.0107940435690826); (0.4385266449173963, 0.0117120238087787); (0.4492938673126905, 0.0097206862803794); (0.4591645070523191, 0.0107148494970235);
   (0.4706220581977972, 0.0116017374228028); (0.4811677326887598, 0.0092171848471610); (0.4899649484245307, 0.0091923211741483); (0.5000000000000000, 0.0105137692195876);
   (0.5100350515754692, 0.0091923211741483); (0.5188322673112402, 0.0092171848471610); (0.5293779418022029, 0.0116017374228028); (0.5408354929476807, 0.0107148494970235);
   (0.5507061326873095, 0.0097206862803794); (0.5614733550826037, 0.0117120238087787); (0.5730259776167191, 0.0107940435690826); (0.5829485623893954, 0.0097436242383586);
   (0.5937252711966501, 0.0117162278362422); (0.6052814937176494, 0.0107970324479397); (0.6152060389009514, 0.0097444902859076); (0.6259831051975580, 0.0117163854922150);
   (0.6375394626952523, 0.0107971445015399); (0.6474640813752237, 0.0097445227551735); (0.6582411610736378, 0.0117163914014466); (0.6697975236304659, 0.0107971487014664);
   (0.6797221450651965, 0.0097445239721687); (0.6904992252659286, 0.0117163916229310); (0.7020555880123783, 0.0107971488588841); (0.7119802095503601, 0.0097445240177827);
   (0.7227572897699193, 0.0117163916312320); (0.7343136525234756, 0.0107971488647830); (0.7442382740653229, 0.0097445240194834); (0.7550153542855745, 0.0117163916315265);
   (0.7665717170393738, 0.0107971488649619); (0.7764963385812166, 0.0097445240192406); (0.7872734188010406, 0.0117163916309659); (0.7988297815540447, 0.0107971488635180);
   (0.8087544030907535, 0.0097445240087025); (0.8195314832949887, 0.0117163916113148); (0.8310878460203394, 0.0107971488136444); (0.8410124673805387, 0.0097445236466973);
   (0.8517895470493531, 0.0117163909363983); (0.8633459088249595, 0.0107971471007698); (0.8732705241231038, 0.0097445112139703); (0.8840475854034149, 0.0117163677571006);
   (0.8956039145614116, 0.0107970882755976); (0.9055283216731672, 0.0097440842438706); (0.9163047514702998, 0.0117155718013551); (0.9278599609851897, 0.0107950702847984);
   (0.9377772292592532, 0.0097294448348822); (0.9485320346872834, 0.0116883734327165); (0.9600494669408544, 0.0107284156674403); (0.9697336742766737, 0.0092520049529829);
   (0.9798033427055871, 0.0108701477542633); (0.9904386902668417, 0.0097267564706331); (0.9980289538434278, 0.0049610803259247)];
  [(0.0019094509641793, 0.0048060465657396); (0.0092625188039971, 0.0094227953309258); (0.0195655117539625, 0.0105304556369426); (0.0293205030444723, 0.0089628797982022);
   (0.0387020789010472, 0.0103931526778328); (0.0498595913966941, 0.0113231117629441); (0.0602783091550984, 0.0094253996837922); (0.0698856627955973, 0.0104577243383985);
   (0.0810797720131471, 0.0113494601825627); (0.0915194383791193, 0.0094395816112497); (0.1011337077686324, 0.0104596792669852); (0.1123289016404419, 0.0113502312646912);
   (0.1227691797557432, 0.0094399952385338); (0.1323836508258203, 0.0104597362538707); (0.1435788762959393, 0.0113502537196359); (0.1540191722251030, 0.0094400072827380);
   (0.1636336491677962, 0.0104597379132180); (0.1748288755579797, 0.0113502543734612); (0.1852691720058325, 0.0094400076334306); (0.1948836491195193, 0.0104597379615333);
   (0.2060788755364924, 0.0113502543924986); (0.2165191719994477, 0.0094400076436413); (0.2261336491181123, 0.0104597379629386); (0.2373288755358635, 0.0113502543930507);
   (0.2477691719992536, 0.0094400076439266); (0.2573836491180360, 0.0104597379629380); (0.2685788755357599, 0.0113502543930085); (0.2790191719990304, 0.0094400076436144);
   (0.2886336491170908, 0.0104597379618320); (0.2998288755334815, 0.0113502543914511); (0.3102691719932191, 0.0094400076350544); (0.3198836490919029, 0.0104597379322901);
   (0.3310788754727082, 0.0113502543498861); (0.3415191718381780, 0.0094400074066662); (0.3511336484198880, 0.0104597371441081); (0.3623288738512675, 0.0113502532409258);
   (0.3727691677016627, 0.0094400013132490); (0.3823836304904668, 0.0104597161153400); (0.3935788305910958, 0.0113502236538260); (0.4040190573415981, 0.0094398387486504);
   (0.4136331521515793, 0.0104591550912549); (0.4248276764680531, 0.0113494343473930); (0.4352661148644128, 0.0094355076330513); (0.4448704047097128, 0.0104442059052762);
   (0.4560469310758911, 0.0113284357106272); (0.4664389521884587, 0.0093242511233450); (0.4757917223851119, 0.0100622676433268); (0.4865220984267850, 0.0108354622868824);
   (0.4962197860073931, 0.0081509998332594); (0.5037802139926069, 0.0081509998332594); (0.5134779015732150, 0.0108354622868824); (0.5242082776148881, 0.0100622676433268);
   (0.5335610478115413, 0.0093242511233450); (0.5439530689241089, 0.0113284357106272); (0.5551295952902872, 0.0104442059052762); (0.5647338851355872, 0.0094355076330513);
   (0.5751723235319469, 0.0113494343473930); (0.5863668478484207, 0.0104591550912549); (0.5959809426584020, 0.0094398387486504); (0.6064211694089042, 0.0113502236538260);
   (0.6176163695095332, 0.0104597161153400); (0.6272308322983372, 0.0094400013132490); (0.6376711261487324, 0.0113502532409258); (0.6488663515801120, 0.0104597371441081);
   (0.6584808281618220, 0.0094400074066662); (0.6689211245272918, 0.0113502543498861); (0.6801163509080971, 0.0104597379322901); (0.6897308280067809, 0.0094400076350544);
   (0.7001711244665184, 0.0113502543914511); (0.7113663508829092, 0.0104597379618320); (0.7209808280009696, 0.0094400076436144); (0.7314211244642401, 0.0113502543930085);
   (0.7426163508819640, 0.0104597379629380); (0.7522308280007464, 0.0094400076439266); (0.7626711244641364, 0.0113502543930507); (0.7738663508818877, 0.0104597379629386);
   (0.7834808280005523, 0.0094400076436413); (0.7939211244635076, 0.0113502543924986); (0.8051163508804806, 0.0104597379615333); (0.8147308279941675, 0.0094400076334306);
   (0.8251711244420202, 0.0113502543734612); (0.8363663508322038, 0.0104597379132180); (0.8459808277748969, 0.0094400072827380); (0.8564211237040608, 0.0113502537196359);
   (0.8676163491741796, 0.0104597362538707); (0.8772308202442568, 0.0094399952385338); (0.8876710983595582, 0.0113502312646912); (0.8988662922313676, 0.0104596792669852);
   (0.9084805616208808, 0.0094395816112497); (0.9189202279868529, 0.0113494601825627); (0.9301143372044026, 0.0104577243383985); (0.9397216908449015, 0.0094253996837922);
   (0.9501404086033058, 0.0113231117629441); (0.9612979210989527, 0.0103931526778328); (0.9706794969555277, 0.0089628797982022); (0.9804344882460375, 0.0105304556369426);
   (0.9907374811960029, 0.0094227953309258); (0.9980905490358207, 0.0048060465657396)];
  [(0.0018515888137496, 0.0046604087910202); (0.0089818364159972, 0.0091372560784735); (0.0189726174583879, 0.0102113509206716); (0.0284320029522156, 0.0086912773800749);
   (0.0375292886313185, 0.0100782086572924); (0.0483486946877034, 0.0109799871640670); (0.0584516937261560, 0.0091397815115560); (0.0677679154381550, 0.0101408236008712);
   (0.0786228092248700, 0.0110055371467275); (0.0887461220646005, 0.0091535336836361); (0.0980690499574618, 0.0101427192891978); (0.1089249955301254, 0.0110062848627309);
   (0.1190489015813267, 0.0091539347767600); (0.1283720250432197, 0.0101427745492080); (0.1392280012566684, 0.0110063066372227); (0.1493519245819181, 0.0091539464559883);
   (0.1586750537384691, 0.0101427761582720); (0.1695310308441015, 0.0110063072712351); (0.1796549546723225, 0.0091539467960539); (0.1889780839946855, 0.0101427762051233);
   (0.1998340611262957, 0.0110063072896957); (0.2099579849691616, 0.0091539468059555); (0.2192811142963524, 0.0101427762064872); (0.2301370914287187, 0.0110063072902328);
   (0.2402610152720102, 0.0091539468062416); (0.2495841445993364, 0.0101427762065191); (0.2604401217317154, 0.0110063072902375); (0.2705640455749943, 0.0091539468061898);
   (0.2798871749021885, 0.0101427762063125); (0.2907431520343178, 0.0110063072899457); (0.3008670758769342, 0.0091539468045840); (0.3101902052004930, 0.0101427762007699);
   (0.3210461823259459, 0.0110063072821473); (0.3311701061508760, 0.0091539467617342); (0.3404932353774411, 0.0101427760528926); (0.3513492123247643, 0.0110063070740862);
   (0.3614731356778201, 0.0091539456184963); (0.3707962623165811, 0.0101427721075072); (0.3816522345113850, 0.0110063015229898); (0.3917761452748639, 0.0091539151170647);
   (0.4010992028712990, 0.0101426668450342); (0.4119550482698136, 0.0110061534219245); (0.4220786232099619, 0.0091531015572459); (0.4313998392085365, 0.0101398591103503);
   (0.4422523028011905, 0.0110022041840043); (0.4523669662634365, 0.0091315537785382); (0.4616393854127847, 0.0100654646790221); (0.4724025395191428, 0.0108986018214208);
   (0.4823090822227744, 0.0086585675836967); (0.4905731333684986, 0.0086352107999575); (0.5000000000000000, 0.0098765710850671); (0.5094268666315015, 0.0086352107999575);
   (0.5176909177772256, 0.0086585675836967); (0.5275974604808573, 0.0108986018214208); (0.5383606145872153, 0.0100654646790221); (0.5476330337365635, 0.0091315537785382);
   (0.5577476971988095, 0.0110022041840043); (0.5686001607914635, 0.0101398591103503); (0.5779213767900382, 0.0091531015572459); (0.5880449517301864, 0.0110061534219245);
   (0.5989007971287010, 0.0101426668450342); (0.6082238547251362, 0.0091539151170647); (0.6183477654886150, 0.0110063015229898); (0.6292037376834189, 0.0101427721075072);
   (0.6385268643221799, 0.0091539456184963); (0.6486507876752357, 0.0110063070740862); (0.6595067646225589, 0.0101427760528926); (0.6688298938491241, 0.0091539467617342);
   (0.6789538176740542, 0.0110063072821473); (0.6898097947995071, 0.0101427762007699); (0.6991329241230657, 0.0091539468045840); (0.7092568479656822, 0.0110063072899457);
   (0.7201128250978116, 0.0101427762063125); (0.7294359544250058, 0.0091539468061898); (0.7395598782682846, 0.0110063072902375); (0.7504158554006636, 0.0101427762065191);
   (0.7597389847279900, 0.0091539468062416); (0.7698629085712813, 0.0110063072902328); (0.7807188857036477, 0.0101427762064872); (0.7900420150308384, 0.0091539468059555);
   (0.8001659388737042, 0.0110063072896957); (0.8110219160053146, 0.0101427762051233); (0.8203450453276776, 0.0091539467960539); (0.8304689691558984, 0.0110063072712351);
   (0.8413249462615310, 0.0101427761582720); (0.8506480754180819, 0.0091539464559883); (0.8607719987433317, 0.0110063066372227); (0.8716279749567802, 0.0101427745492080);
   (0.8809510984186733, 0.0091539347767600); (0.8910750044698746, 0.0110062848627309); (0.9019309500425383, 0.0101427192891978); (0.9112538779353996, 0.0091535336836361);
   (0.9213771907751301, 0.0110055371467275); (0.9322320845618450, 0.0101408236008712); (0.9415483062738439, 0.0091397815115560); (0.9516513053122966, 0.0109799871640670);
   (0.9624707113686815, 0.0100782086572924); (0.9715679970477844, 0.0086912773800749); (0.9810273825416120, 0.0102113509206716); (0.9910181635840027, 0.0091372560784735);
   (0.9981484111862504, 0.0046604087910202)];
  [(0.0017971303192276, 0.0045233379442255); (0.0087176647567032, 0.0088685132526360); (0.0184145992978471, 0.0099110170700636); (0.0275957675712681, 0.0084356515747785);
   (0.0364254860245150, 0.0097817907556073); (0.0469266742557121, 0.0106570463651239); (0.0567325262636220, 0.0088709644082750); (0.0657747414546798, 0.0098425640831986);
   (0.0763103736594326, 0.0106818448777061); (0.0861359420038770, 0.0088843121047056); (0.0951846661351835, 0.0098444040159861); (0.1057213191910041, 0.0106825706020624);
   (0.1155474632995230, 0.0088847014009730); (0.1245963772478309, 0.0098444576507019); (0.1351330600432370, 0.0106825917361279); (0.1449592209177440, 0.0088847127366946);
   (0.1540081403932200, 0.0098444592124405); (0.1645448240545691, 0.0106825923514929); (0.1743709854172541, 0.0088847130667582); (0.1834199050536653, 0.0098444592579138);
   (0.1939565887402282, 0.0106825923694105); (0.2037827501171275, 0.0088847130763687); (0.2128316697582246, 0.0098444592592378); (0.2233683534455216, 0.0106825923699322);
   (0.2331945148228346, 0.0088847130766481); (0.2422434344640672, 0.0098444592592749); (0.2527801181513838, 0.0106825923699453); (0.2626062795287042, 0.0088847130766449);
   (0.2716551991699152, 0.0098444592592369); (0.2821918828571853, 0.0106825923698908); (0.2920180442343814, 0.0088847130763432); (0.3010669638749089, 0.0098444592581948);
   (0.3116036475609238, 0.0106825923684245); (0.3214298089347944, 0.0088847130682865); (0.3304787285570850, 0.0098444592303907); (0.3410154122096077, 0.0106825923293045);
   (0.3508415734947558, 0.0088847128533329); (0.3598904926304828, 0.0098444584885723); (0.3704271753894282, 0.0106825912855772); (0.3802533343074473, 0.0088847071183520);
   (0.3893022404616158, 0.0098444386967906); (0.3998388993798549, 0.0106825634388950); (0.4096649951450335, 0.0088845541163769); (0.4187135549661922, 0.0098439106741222);
   (0.4292495778522852, 0.0106818205622522); (0.4390739904606238, 0.0088804777722836); (0.4481133220797296, 0.0098298408520247); (0.4586324057184857, 0.0106620571394138);
   (0.4684131314714905, 0.0087757657631482); (0.4772157387153995, 0.0094703695466605); (0.4873149161663858, 0.0101980821523599); (0.4964421515363700, 0.0076715292548324);
   (0.5035578484636299, 0.0076715292548324); (0.5126850838336141, 0.0101980821523599); (0.5227842612846005, 0.0094703695466605); (0.5315868685285094, 0.0087757657631482);
   (0.5413675942815143, 0.0106620571394138); (0.5518866779202702, 0.0098298408520247); (0.5609260095393762, 0.0088804777722836); (0.5707504221477148, 0.0106818205622522);
   (0.5812864450338078, 0.0098439106741222); (0.5903350048549666, 0.0088845541163769); (0.6001611006201452, 0.0106825634388950); (0.6106977595383842, 0.0098444386967906);
   (0.6197466656925527, 0.0088847071183520); (0.6295728246105717, 0.0106825912855772); (0.6401095073695171, 0.0098444584885723); (0.6491584265052442, 0.0088847128533329);
   (0.6589845877903923, 0.0106825923293045); (0.6695212714429148, 0.0098444592303907); (0.6785701910652056, 0.0088847130682865); (0.6883963524390763, 0.0106825923684245);
   (0.6989330361250911, 0.0098444592581948); (0.7079819557656186, 0.0088847130763432); (0.7178081171428147, 0.0106825923698908); (0.7283448008300849, 0.0098444592592369);
   (0.7373937204712958, 0.0088847130766449); (0.7472198818486162, 0.0106825923699453); (0.7577565655359327, 0.0098444592592749); (0.7668054851771654, 0.0088847130766481);
   (0.7766316465544784, 0.0106825923699322); (0.7871683302417753, 0.0098444592592378); (0.7962172498828725, 0.0088847130763687); (0.8060434112597717, 0.0106825923694105);
   (0.8165800949463347, 0.0098444592579138); (0.8256290145827458, 0.0088847130667582); (0.8354551759454308, 0.0106825923514929); (0.8459918596067800, 0.0098444592124405);
   (0.8550407790822560, 0.0088847127366946); (0.8648669399567630, 0.0106825917361279); (0.8754036227521691, 0.0098444576507019); (0.8844525367004770, 0.0088847014009730);
   (0.8942786808089959, 0.0106825706020624); (0.9048153338648166, 0.0098444040159861); (0.9138640579961230, 0.0088843121047056); (0.9236896263405674, 0.0106818448777061);
   (0.9342252585453201, 0.0098425640831986); (0.9432674737363779, 0.0088709644082750); (0.9530733257442878, 0.0106570463651239); (0.9635745139754849, 0.0097817907556073);
   (0.9724042324287320, 0.0084356515747785); (0.9815854007021528, 0.0099110170700636); (0.9912823352432968, 0.0088685132526360); (0.9982028696807724, 0.0045233379442255)];
  [(0.0017457837386782, 0.0043940997172476); (0.0084685886207973, 0.0086151271597036); (0.0178884678893372, 0.0096278451537761); (0.0268073170692318, 0.0081946329583563);
   (0.0353847578523860, 0.0095023110197328); (0.0455859121341203, 0.0103525593261204); (0.0551115969418043, 0.0086175082823243); (0.0638954631274033, 0.0095613479665357);
   (0.0741300772691631, 0.0103766493097716); (0.0836749150894805, 0.0086304746159997); (0.0924651042456068, 0.0095631353298150); (0.1027007100712611, 0.0103773542991463);
   (0.1122461072052509, 0.0086308527895166); (0.1210364807550357, 0.0095631874321104); (0.1312721154705731, 0.0103773748293814); (0.1408175288915228, 0.0086308638013604);
   (0.1496079078105566, 0.0095631889492279); (0.1598435433672957, 0.0103773754271645); (0.1693889572624754, 0.0086308641219937); (0.1781793363378463, 0.0095631889934020);
   (0.1884149719190788, 0.0103773754445702); (0.1979603858280667, 0.0086308641313296); (0.2067507649079897, 0.0095631889946882); (0.2169864004899354, 0.0103773754450770);
   (0.2265318143993253, 0.0086308641316013); (0.2353221934793806, 0.0095631889947253); (0.2455578290613467, 0.0103773754450914); (0.2551032429707474, 0.0086308641316071);
   (0.2638936220508018, 0.0095631889947191); (0.2741292576327597, 0.0103773754450815); (0.2836746715421373, 0.0086308641315506); (0.2924650506220633, 0.0095631889945232);
   (0.3027006862037853, 0.0103773754448059); (0.3122461001125379, 0.0086308641300363); (0.3210364791890363, 0.0095631889892974); (0.3312721147644632, 0.0103773754374532);
   (0.3408175286565402, 0.0086308640896351); (0.3496079076415873, 0.0095631888498702); (0.3598435430490635, 0.0103773752412812); (0.3693889564962304, 0.0086308630117251);
   (0.3781793330413479, 0.0095631851299354); (0.3884149639678773, 0.0103773700073904); (0.3979603655448716, 0.0086308342532324); (0.4067506769929390, 0.0095630858824609);
   (0.4169861883686813, 0.0103772303692431); (0.4265312733122498, 0.0086300671825462); (0.4353198483966201, 0.0095604385897589); (0.4455521712125511, 0.0103735068020612);
   (0.4550888539055259, 0.0086097507054789); (0.4638314205320541, 0.0094902952687922); (0.4739795372609060, 0.0102758245744825); (0.4833199918100444, 0.0081637922931997);
   (0.4911118114617272, 0.0081417701828171); (0.5000000000000000, 0.0093121955944918); (0.5088881885382728, 0.0081417701828171); (0.5166800081899556, 0.0081637922931997);
   (0.5260204627390940, 0.0102758245744825); (0.5361685794679458, 0.0094902952687922); (0.5449111460944741, 0.0086097507054789); (0.5544478287874489, 0.0103735068020612);
   (0.5646801516033798, 0.0095604385897589); (0.5734687266877503, 0.0086300671825462); (0.5830138116313186, 0.0103772303692431); (0.5932493230070609, 0.0095630858824609);
   (0.6020396344551283, 0.0086308342532324); (0.6115850360321227, 0.0103773700073904); (0.6218206669586520, 0.0095631851299354); (0.6306110435037696, 0.0086308630117251);
   (0.6401564569509364, 0.0103773752412812); (0.6503920923584127, 0.0095631888498702); (0.6591824713434599, 0.0086308640896351); (0.6687278852355367, 0.0103773754374532);
   (0.6789635208109638, 0.0095631889892974); (0.6877538998874621, 0.0086308641300363); (0.6972993137962147, 0.0103773754448059); (0.7075349493779366, 0.0095631889945232);
   (0.7163253284578626, 0.0086308641315506); (0.7258707423672403, 0.0103773754450815); (0.7361063779491982, 0.0095631889947191); (0.7448967570292525, 0.0086308641316071);
   (0.7544421709386532, 0.0103773754450914); (0.7646778065206193, 0.0095631889947253); (0.7734681856006747, 0.0086308641316013); (0.7830135995100647, 0.0103773754450770);
   (0.7932492350920103, 0.0095631889946882); (0.8020396141719331, 0.0086308641313296); (0.8115850280809211, 0.0103773754445702); (0.8218206636621537, 0.0095631889934020);
   (0.8306110427375245, 0.0086308641219937); (0.8401564566327042, 0.0103773754271645); (0.8503920921894434, 0.0095631889492279); (0.8591824711084771, 0.0086308638013604);
   (0.8687278845294270, 0.0103773748293814); (0.8789635192449642, 0.0095631874321104); (0.8877538927947490, 0.0086308527895166); (0.8972992899287389, 0.0103773542991463);
   (0.9075348957543932, 0.0095631353298150); (0.9163250849105194, 0.0086304746159997); (0.9258699227308369, 0.0103766493097716); (0.9361045368725968, 0.0095613479665357);
   (0.9448884030581957, 0.0086175082823243); (0.9544140878658796, 0.0103525593261204); (0.9646152421476138, 0.0095023110197328); (0.9731926829307681, 0.0081946329583563);
   (0.9821115321106627, 0.0096278451537761); (0.9915314113792025, 0.0086151271597036); (0.9982542162613218, 0.0043940997172476)];
  [(0.0016972897459372, 0.0042720413917685); (0.0082333500479974, 0.0083758180719340); (0.0173915660035222, 0.0093604050106157); (0.0260626693728643, 0.0079670042650686);
   (0.0344018479120420, 0.0092383579358514); (0.0443196367970614, 0.0100649882337281); (0.0535807192489764, 0.0083781330522597); (0.0621205891516421, 0.0092957549674653);
   (0.0720709084561308, 0.0100884090511669); (0.0813506118925505, 0.0083907392099997); (0.0898966291276733, 0.0092974926817646); (0.0998479125692816, 0.0100890944575033);
   (0.1091281597828828, 0.0083911068786967); (0.1176743562896181, 0.0092975433367740); (0.1276256678186127, 0.0100891144174541); (0.1369059308667582, 0.0083911175846560);
   (0.1454521325935967, 0.0092975448117493); (0.1554034449404264, 0.0100891149986322); (0.1646837084496289, 0.0083911178963828); (0.1732299103284617, 0.0092975448546963);
   (0.1831812226991044, 0.0100891150155544); (0.1924614862217315, 0.0083911179054593); (0.2010076881049900, 0.0092975448559468); (0.2109590004763261, 0.0100891150160471);
   (0.2202392639993440, 0.0083911179057236); (0.2287854658827313, 0.0092975448559832); (0.2387367782540876, 0.0100891150160614); (0.2480170417771168, 0.0083911179057309);
   (0.2565632436605069, 0.0092975448559829); (0.2665145560318620, 0.0100891150160599); (0.2757948195548871, 0.0083911179057204); (0.2843410214382531, 0.0092975448559460);
   (0.2942923338095639, 0.0100891150160080); (0.3035725973324713, 0.0083911179054352); (0.3121187992151918, 0.0092975448549618); (0.3220701115853169, 0.0100891150146232);
   (0.3313503751050836, 0.0083911178978261); (0.3398965769705803, 0.0092975448287023); (0.3498478893090740, 0.0100891149776765); (0.3591281527450471, 0.0083911176948144);
   (0.3676743541510116, 0.0092975441280961); (0.3776256656455711, 0.0100891139919340); (0.3869059268459224, 0.0083911122784436); (0.3954521159915260, 0.0092975254358578);
   (0.4054034049698629, 0.0100890876922897); (0.4146836065258649, 0.0083909677765781); (0.4232294685791815, 0.0092970267477821); (0.4331801568604916, 0.0100883860865716);
   (0.4424587687683669, 0.0083871178960456); (0.4509959152975225, 0.0092837385824678); (0.4609306054007921, 0.0100697206316686); (0.4701679575008521, 0.0082882232207511);
   (0.4784815310089883, 0.0089442379051794); (0.4880196430460311, 0.0096315220327844); (0.4966398097843494, 0.0072453331851195); (0.5033601902156505, 0.0072453331851195);
   (0.5119803569539689, 0.0096315220327844); (0.5215184689910116, 0.0089442379051794); (0.5298320424991478, 0.0082882232207511); (0.5390693945992079, 0.0100697206316686);
   (0.5490040847024774, 0.0092837385824678); (0.5575412312316330, 0.0083871178960456); (0.5668198431395083, 0.0100883860865716); (0.5767705314208184, 0.0092970267477821);
   (0.5853163934741350, 0.0083909677765781); (0.5945965950301371, 0.0100890876922897); (0.6045478840084739, 0.0092975254358578); (0.6130940731540775, 0.0083911122784436);
   (0.6223743343544288, 0.0100891139919340); (0.6323256458489884, 0.0092975441280961); (0.6408718472549528, 0.0083911176948144); (0.6501521106909260, 0.0100891149776765);
   (0.6601034230294196, 0.0092975448287023); (0.6686496248949163, 0.0083911178978261); (0.6779298884146830, 0.0100891150146232); (0.6878812007848082, 0.0092975448549618);
   (0.6964274026675287, 0.0083911179054352); (0.7057076661904360, 0.0100891150160080); (0.7156589785617468, 0.0092975448559460); (0.7242051804451127, 0.0083911179057204);
   (0.7334854439681379, 0.0100891150160599); (0.7434367563394931, 0.0092975448559829); (0.7519829582228832, 0.0083911179057309); (0.7612632217459124, 0.0100891150160614);
   (0.7712145341172686, 0.0092975448559832); (0.7797607360006559, 0.0083911179057236); (0.7890409995236739, 0.0100891150160471); (0.7989923118950100, 0.0092975448559468);
   (0.8075385137782684, 0.0083911179054593); (0.8168187773008955, 0.0100891150155544); (0.8267700896715383, 0.0092975448546963); (0.8353162915503711, 0.0083911178963828);
   (0.8445965550595735, 0.0100891149986322); (0.8545478674064033, 0.0092975448117493); (0.8630940691332416, 0.0083911175846560); (0.8723743321813873, 0.0100891144174541);
   (0.8823256437103818, 0.0092975433367740); (0.8908718402171172, 0.0083911068786967); (0.9001520874307183, 0.0100890944575033); (0.9101033708723266, 0.0092974926817646);
   (0.9186493881074494, 0.0083907392099997); (0.9279290915438692, 0.0100884090511669); (0.9378794108483579, 0.0092957549674653); (0.9464192807510236, 0.0083781330522597);
   (0.9556803632029385, 0.0100649882337281); (0.9655981520879580, 0.0092383579358514); (0.9739373306271357, 0.0079670042650686); (0.9826084339964777, 0.0093604050106157);
   (0.9917666499520025, 0.0083758180719340); (0.9983027102540628, 0.0042720413917685)];
  [(0.0016514170501010, 0.0041565808136126); (0.0080108270737272, 0.0081494446105304); (0.0169215236791027, 0.0091074210914098); (0.0253582729033274, 0.0077516798254722);
   (0.0334720682387436, 0.0089886725862337); (0.0431218087755192, 0.0097929615247084); (0.0521325917017067, 0.0081516970238202); (0.0604416543097058, 0.0090445183467230);
   (0.0701230460654246, 0.0098157493470813); (0.0791519467062653, 0.0081639624745943); (0.0874669905026010, 0.0090462090957710); (0.0971493203376795, 0.0098164162289222);
   (0.1061787500590211, 0.0081643202062995); (0.1144939682817906, 0.0090462583817261); (0.1241763254451367, 0.0098164356494148); (0.1332057705730621, 0.0081643306229085);
   (0.1415209938748508, 0.0090462598168372); (0.1512033518339284, 0.0098164362148854); (0.1602327974104497, 0.0081643309262102); (0.1685480208601249, 0.0090462598586235);
   (0.1782303788423719, 0.0098164362313502); (0.1872598244319550, 0.0081643309350415); (0.1955750478859362, 0.0090462598598402); (0.2052574058688578, 0.0098164362318296);
   (0.2142868514588213, 0.0081643309352986); (0.2226020749129278, 0.0090462598598756); (0.2322844328958691, 0.0098164362318436); (0.2413138784858436, 0.0081643309353061);
   (0.2496291019399536, 0.0090462598598763); (0.2593114599228951, 0.0098164362318436); (0.2683409055128691, 0.0081643309353043); (0.2766561289669747, 0.0090462598598694);
   (0.2863384869499078, 0.0098164362318339); (0.2953679325398597, 0.0081643309352506); (0.3036831559938438, 0.0090462598596842); (0.3133655139765537, 0.0098164362315732);
   (0.3223949595659143, 0.0081643309338182); (0.3307101830166559, 0.0090462598547408); (0.3403925409934112, 0.0098164362246179); (0.3494219865669975, 0.0081643308956008);
   (0.3577372099312313, 0.0090462597228502); (0.3674195677491142, 0.0098164360390498); (0.3764490129018396, 0.0081643298759562); (0.3847642339580318, 0.0090462562039929);
   (0.3944465875371812, 0.0098164310880720); (0.4034760214613651, 0.0081643026719766); (0.4117911809392667, 0.0090461623212468); (0.4214734214298337, 0.0098162989979326);
   (0.4305025558359120, 0.0081635770645707); (0.4388160728076137, 0.0090436581254476); (0.4484952970929538, 0.0098127767046525); (0.4575164834241461, 0.0081443587754530);
   (0.4657864788816728, 0.0089773063353440); (0.4753860487603165, 0.0097203745974835); (0.4842216138743663, 0.0077225062232970); (0.4915922540854176, 0.0077016744972594);
   (0.5000000000000000, 0.0088088336704653); (0.5084077459145824, 0.0077016744972594); (0.5157783861256338, 0.0077225062232970); (0.5246139512396836, 0.0097203745974835);
   (0.5342135211183272, 0.0089773063353440); (0.5424835165758539, 0.0081443587754530); (0.5515047029070463, 0.0098127767046525); (0.5611839271923863, 0.0090436581254476);
   (0.5694974441640881, 0.0081635770645707); (0.5785265785701663, 0.0098162989979326); (0.5882088190607333, 0.0090461623212468); (0.5965239785386350, 0.0081643026719766);
   (0.6055534124628188, 0.0098164310880720); (0.6152357660419682, 0.0090462562039929); (0.6235509870981605, 0.0081643298759562); (0.6325804322508858, 0.0098164360390498);
   (0.6422627900687687, 0.0090462597228502); (0.6505780134330026, 0.0081643308956008); (0.6596074590065888, 0.0098164362246179); (0.6692898169833441, 0.0090462598547408);
   (0.6776050404340858, 0.0081643309338182); (0.6866344860234463, 0.0098164362315732); (0.6963168440061563, 0.0090462598596842); (0.7046320674601403, 0.0081643309352506);
   (0.7136615130500922, 0.0098164362318339); (0.7233438710330254, 0.0090462598598694); (0.7316590944871310, 0.0081643309353043); (0.7406885400771049, 0.0098164362318436);
   (0.7503708980600464, 0.0090462598598763); (0.7586861215141565, 0.0081643309353061); (0.7677155671041310, 0.0098164362318436); (0.7773979250870723, 0.0090462598598756);
   (0.7857131485411788, 0.0081643309352986); (0.7947425941311422, 0.0098164362318296); (0.8044249521140638, 0.0090462598598402); (0.8127401755680450, 0.0081643309350415);
   (0.8217696211576282, 0.0098164362313502); (0.8314519791398751, 0.0090462598586235); (0.8397672025895503, 0.0081643309262102); (0.8487966481660716, 0.0098164362148854);
   (0.8584790061251493, 0.0090462598168372); (0.8667942294269381, 0.0081643306229085); (0.8758236745548633, 0.0098164356494148); (0.8855060317182095, 0.0090462583817261);
   (0.8938212499409790, 0.0081643202062995); (0.9028506796623206, 0.0098164162289222); (0.9125330094973990, 0.0090462090957710); (0.9208480532937346, 0.0081639624745943);
   (0.9298769539345756, 0.0098157493470813); (0.9395583456902943, 0.0090445183467230); (0.9478674082982933, 0.0081516970238202); (0.9568781912244808, 0.0097929615247084);
   (0.9665279317612565, 0.0089886725862337); (0.9746417270966726, 0.0077516798254722); (0.9830784763208973, 0.0091074210914098); (0.9919891729262728, 0.0081494446105304);
   (0.9983485829498990, 0.0041565808136126)];
  [(0.0016079587066773, 0.0040471971079912); (0.0078000158349449, 0.0079349855418322); (0.0164762204243895, 0.0088677521153201); (0.0246909499321872, 0.0075476882511176);
   (0.0325912243377240, 0.0087521285708065); (0.0419870243340582, 0.0095352520109003); (0.0507606813937671, 0.0079371786810881); (0.0588510844594504, 0.0088065047060198);
   (0.0682777027479134, 0.0095574401537370); (0.0770690007403110, 0.0079491213568418); (0.0851652275946378, 0.0088081509616717); (0.0945927592761616, 0.0095580894860558);
   (0.1033845724258890, 0.0079494696745548); (0.1114809691164803, 0.0088081989506280); (0.1209085274071068, 0.0095581083954828); (0.1297003555579815, 0.0079494798170425);
   (0.1377967571939337, 0.0088082003479730); (0.1472243162593513, 0.0095581089460726); (0.1560161448470168, 0.0079494801123626); (0.1641125466269637, 0.0088082003886597);
   (0.1735401057149410, 0.0095581089621042); (0.1823319343153246, 0.0079494801209615); (0.1904283360994642, 0.0088082003898444); (0.1998558951880984, 0.0095581089625710);
   (0.2086477237888523, 0.0079494801212118); (0.2167441255731139, 0.0088082003898789); (0.2261716846617673, 0.0095581089625845); (0.2349635132625319, 0.0079494801212191);
   (0.2430599150467971, 0.0088082003898798); (0.2524874741354509, 0.0095581089625849); (0.2612793027362157, 0.0079494801212190); (0.2693757045204801, 0.0088082003898785);
   (0.2788032636091324, 0.0095581089625830); (0.2875950922098930, 0.0079494801212088); (0.2956914939941345, 0.0088082003898436); (0.3051190530827447, 0.0095581089625339);
   (0.3139108816833939, 0.0079494801209386); (0.3220072834670237, 0.0088082003889112); (0.3314348425545107, 0.0095581089612220); (0.3402266711521845, 0.0079494801137300);
   (0.3483230729194972, 0.0088082003640338); (0.3577506319770174, 0.0095581089262198); (0.3665424604953078, 0.0079494799214031); (0.3746388618272741, 0.0088081997003015);
   (0.3840664200852779, 0.0095581079923585); (0.3928582464856107, 0.0079494747901044); (0.4009546362024983, 0.0088081819918653); (0.4103821731293438, 0.0095580830769061);
   (0.4191739430245036, 0.0079493378936003); (0.4272700228644878, 0.0088077095505304); (0.4366969907099394, 0.0095574183978046); (0.4454872546226634, 0.0079456906383590);
   (0.4535750776502845, 0.0087951207623379); (0.4629868893270662, 0.0095397353352650); (0.4717380650008073, 0.0078520009459747); (0.4796140820085153, 0.0084734885417489);
   (0.4886501881488715, 0.0091245998205326); (0.4968166619009626, 0.0068639998595869); (0.5031833380990374, 0.0068639998595869); (0.5113498118511284, 0.0091245998205326);
   (0.5203859179914847, 0.0084734885417489); (0.5282619349991927, 0.0078520009459747); (0.5370131106729338, 0.0095397353352650); (0.5464249223497155, 0.0087951207623379);
   (0.5545127453773365, 0.0079456906383590); (0.5633030092900605, 0.0095574183978046); (0.5727299771355122, 0.0088077095505304); (0.5808260569754964, 0.0079493378936003);
   (0.5896178268706561, 0.0095580830769061); (0.5990453637975016, 0.0088081819918653); (0.6071417535143891, 0.0079494747901044); (0.6159335799147220, 0.0095581079923585);
   (0.6253611381727259, 0.0088081997003015); (0.6334575395046922, 0.0079494799214031); (0.6422493680229825, 0.0095581089262198); (0.6516769270805027, 0.0088082003640338);
   (0.6597733288478155, 0.0079494801137300); (0.6685651574454893, 0.0095581089612220); (0.6779927165329761, 0.0088082003889112); (0.6860891183166060, 0.0079494801209386);
   (0.6948809469172552, 0.0095581089625339); (0.7043085060058654, 0.0088082003898436); (0.7124049077901068, 0.0079494801212088); (0.7211967363908675, 0.0095581089625830);
   (0.7306242954795198, 0.0088082003898785); (0.7387206972637842, 0.0079494801212190); (0.7475125258645491, 0.0095581089625849); (0.7569400849532029, 0.0088082003898798);
   (0.7650364867374680, 0.0079494801212191); (0.7738283153382327, 0.0095581089625845); (0.7832558744268860, 0.0088082003898789); (0.7913522762111477, 0.0079494801212118);
   (0.8001441048119016, 0.0095581089625710); (0.8095716639005358, 0.0088082003898444); (0.8176680656846753, 0.0079494801209615); (0.8264598942850588, 0.0095581089621042);
   (0.8358874533730363, 0.0088082003886597); (0.8439838551529830, 0.0079494801123626); (0.8527756837406487, 0.0095581089460726); (0.8622032428060662, 0.0088082003479730);
   (0.8702996444420185, 0.0079494798170425); (0.8790914725928931, 0.0095581083954828); (0.8885190308835197, 0.0088081989506280); (0.8966154275741111, 0.0079494696745548);
   (0.9054072407238384, 0.0095580894860558); (0.9148347724053620, 0.0088081509616717); (0.9229309992596889, 0.0079491213568418); (0.9317222972520867, 0.0095574401537370);
   (0.9411489155405496, 0.0088065047060198); (0.9492393186062328, 0.0079371786810881); (0.9580129756659417, 0.0095352520109003); (0.9674087756622759, 0.0087521285708065);
   (0.9753090500678128, 0.0075476882511176); (0.9835237795756104, 0.0088677521153201); (0.9921999841650549, 0.0079349855418322); (0.9983920412933227, 0.0040471971079912)];
  [(0.0015667289962497, 0.0039434228231709); (0.0076000154289207, 0.0077315243740929); (0.0160537532340205, 0.0086403738559529); (0.0240578486518747, 0.0073541577831403);
   (0.0317555519188080, 0.0085277150177089); (0.0409104339665183, 0.0092907583695952); (0.0494591254605936, 0.0077336612790089); (0.0573420822938235, 0.0085806968930449);
   (0.0665269924210438, 0.0093123775856925); (0.0750928725162004, 0.0077452977323074); (0.0829815038101600, 0.0085823009370135); (0.0921673039101061, 0.0093130102684646);
   (0.1007336859534303, 0.0077456371187969); (0.1086224827288782, 0.0085823476954837); (0.1178083087556425, 0.0093130286930346); (0.1263747054154691, 0.0077456470012209);
   (0.1342635070094738, 0.0085823490569994); (0.1434493337911628, 0.0093130292295066); (0.1520157308765805, 0.0077456472889687); (0.1599045326108877, 0.0085823490966428);
   (0.1690903594145579, 0.0093130292451271); (0.1776567565123676, 0.0077456472973471); (0.1855455582507600, 0.0085823490977971); (0.1947313850550702, 0.0093130292455820);
   (0.2032977821532407, 0.0077456472975910); (0.2111865838917520, 0.0085823490978307); (0.2203724106960809, 0.0093130292455952); (0.2289388077942619, 0.0077456472975981);
   (0.2368276095327767, 0.0085823490978317); (0.2460134363371061, 0.0093130292455956); (0.2545798334352873, 0.0077456472975983); (0.2624686351738020, 0.0085823490978314);
   (0.2716544619781312, 0.0093130292455952); (0.2802208590763117, 0.0077456472975964); (0.2881096608148221, 0.0085823490978249); (0.2972954876191433, 0.0093130292455860);
   (0.3058618847173027, 0.0077456472975454); (0.3137506864556979, 0.0085823490976491); (0.3229365132598073, 0.0093130292453386); (0.3315029103574059, 0.0077456472961865);
   (0.3393917120927248, 0.0085823490929592); (0.3485775388911850, 0.0093130292387400); (0.3571439359738181, 0.0077456472599289); (0.3650327376270655, 0.0085823489678322);
   (0.3742185642748006, 0.0093130290626883); (0.3827849609581555, 0.0077456462925738); (0.3906737604217225, 0.0085823456294292); (0.3998595830480950, 0.0093130243656068);
   (0.4084259690787310, 0.0077456204836701); (0.4163147101218684, 0.0085822565611828); (0.4255004254590730, 0.0093128990493207); (0.4340665273315061, 0.0077449320869004);
   (0.4419537100995309, 0.0085798807856810); (0.4511365639086997, 0.0093095573864651); (0.4596951252998309, 0.0077266993510708); (0.4675410184262024, 0.0085169316514802);
   (0.4766483026700438, 0.0092218938488946); (0.4850307618808090, 0.0073264802631279); (0.4920234205425757, 0.0073067168307333); (0.5000000000000000, 0.0083570986104414);
   (0.5079765794574242, 0.0073067168307333); (0.5149692381191909, 0.0073264802631279); (0.5233516973299561, 0.0092218938488946); (0.5324589815737976, 0.0085169316514802);
   (0.5403048747001691, 0.0077266993510708); (0.5488634360913003, 0.0093095573864651); (0.5580462899004690, 0.0085798807856810); (0.5659334726684938, 0.0077449320869004);
   (0.5744995745409269, 0.0093128990493207); (0.5836852898781316, 0.0085822565611828); (0.5915740309212690, 0.0077456204836701); (0.6001404169519050, 0.0093130243656068);
   (0.6093262395782775, 0.0085823456294292); (0.6172150390418445, 0.0077456462925738); (0.6257814357251993, 0.0093130290626883); (0.6349672623729344, 0.0085823489678322);
   (0.6428560640261819, 0.0077456472599289); (0.6514224611088150, 0.0093130292387400); (0.6606082879072751, 0.0085823490929592); (0.6684970896425941, 0.0077456472961865);
   (0.6770634867401927, 0.0093130292453386); (0.6862493135443021, 0.0085823490976491); (0.6941381152826972, 0.0077456472975454); (0.7027045123808566, 0.0093130292455860);
   (0.7118903391851779, 0.0085823490978249); (0.7197791409236883, 0.0077456472975964); (0.7283455380218687, 0.0093130292455952); (0.7375313648261979, 0.0085823490978314);
   (0.7454201665647127, 0.0077456472975983); (0.7539865636628938, 0.0093130292455956); (0.7631723904672233, 0.0085823490978317); (0.7710611922057381, 0.0077456472975981);
   (0.7796275893039191, 0.0093130292455952); (0.7888134161082480, 0.0085823490978307); (0.7967022178467593, 0.0077456472975910); (0.8052686149449297, 0.0093130292455820);
   (0.8144544417492400, 0.0085823490977971); (0.8223432434876324, 0.0077456472973471); (0.8309096405854421, 0.0093130292451271); (0.8400954673891122, 0.0085823490966428);
   (0.8479842691234194, 0.0077456472889687); (0.8565506662088371, 0.0093130292295066); (0.8657364929905260, 0.0085823490569994); (0.8736252945845309, 0.0077456470012209);
   (0.8821916912443575, 0.0093130286930346); (0.8913775172711218, 0.0085823476954837); (0.8992663140465698, 0.0077456371187969); (0.9078326960898938, 0.0093130102684646);
   (0.9170184961898400, 0.0085823009370135); (0.9249071274837994, 0.0077452977323074); (0.9334730075789562, 0.0093123775856925); (0.9426579177061766, 0.0085806968930449);
   (0.9505408745394064, 0.0077336612790089); (0.9590895660334817, 0.0092907583695952); (0.9682444480811919, 0.0085277150177089); (0.9759421513481252, 0.0073541577831403);
   (0.9839462467659794, 0.0086403738559529); (0.9923999845710791, 0.0077315243740929); (0.9984332710037503, 0.0039434228231709)];
  [(0.0015275607713435, 0.0038448372525917); (0.0074100150431977, 0.0075382362647406); (0.0156524094031700, 0.0084243645095541); (0.0234564024355779, 0.0071703038385618);
   (0.0309616631208378, 0.0083145221422662); (0.0398876731173553, 0.0090584894103553); (0.0482226473240787, 0.0075403197470337); (0.0559085302364779, 0.0083661794707188);
   (0.0648638176105177, 0.0090795681460502); (0.0732155507032954, 0.0075516652889997); (0.0809069662149060, 0.0083677434135881); (0.0898631213123535, 0.0090801850117530);
   (0.0982153438045945, 0.0075519961908270); (0.1059069206606563, 0.0083677890030966); (0.1148631010367514, 0.0090802029757087); (0.1232153377800824, 0.0075520058261904);
   (0.1309069193342370, 0.0083677903305744); (0.1398631004463838, 0.0090802034987690); (0.1482153376046660, 0.0075520061067445); (0.1559069192956155, 0.0083677903692267);
   (0.1648631004291940, 0.0090802035139990); (0.1732153375995584, 0.0075520061149134); (0.1809069192944910, 0.0083677903703521); (0.1898631004286935, 0.0090802035144424);
   (0.1982153375994097, 0.0075520061151513); (0.2059069192944582, 0.0083677903703849); (0.2148631004286789, 0.0090802035144553); (0.2232153375994054, 0.0075520061151582);
   (0.2309069192944573, 0.0083677903703859); (0.2398631004286785, 0.0090802035144557); (0.2482153375994052, 0.0075520061151584); (0.2559069192944572, 0.0083677903703859);
   (0.2648631004286784, 0.0090802035144556); (0.2732153375994050, 0.0075520061151580); (0.2809069192944562, 0.0083677903703846); (0.2898631004286758, 0.0090802035144539);
   (0.2982153375993984, 0.0075520061151484); (0.3059069192944279, 0.0083677903703514); (0.3148631004286075, 0.0090802035144072); (0.3232153375992242, 0.0075520061148917);
   (0.3309069192936726, 0.0083677903694656); (0.3398631004267852, 0.0090802035131609); (0.3482153375945753, 0.0075520061080435); (0.3559069192735223, 0.0083677903458321);
   (0.3648631003781666, 0.0090802034799088); (0.3732153374705424, 0.0075520059253330); (0.3809069187359104, 0.0083677897152865); (0.3898630990810140, 0.0090802025927406);
   (0.3982153341613302, 0.0075520010505992); (0.4059069043923734, 0.0083677728922720); (0.4148630644728766, 0.0090801789230608); (0.4232152458732785, 0.0075518709989203);
   (0.4309065217212634, 0.0083673240730039); (0.4398621411744425, 0.0090795474779144); (0.4482128918915302, 0.0075484061064411); (0.4558963237677703, 0.0083553647242210);
   (0.4648375448607129, 0.0090627485685018); (0.4731511617507669, 0.0074594008986760); (0.4806333779080896, 0.0080498141146614); (0.4892176787414280, 0.0086683698295059);
   (0.4969758288059145, 0.0065207998666075); (0.5030241711940855, 0.0065207998666075); (0.5107823212585720, 0.0086683698295059); (0.5193666220919105, 0.0080498141146614);
   (0.5268488382492331, 0.0074594008986760); (0.5351624551392872, 0.0090627485685018); (0.5441036762322298, 0.0083553647242210); (0.5517871081084698, 0.0075484061064411);
   (0.5601378588255576, 0.0090795474779144); (0.5690934782787366, 0.0083673240730039); (0.5767847541267216, 0.0075518709989203); (0.5851369355271234, 0.0090801789230608);
   (0.5940930956076266, 0.0083677728922720); (0.6017846658386699, 0.0075520010505992); (0.6101369009189860, 0.0090802025927406); (0.6190930812640896, 0.0083677897152865);
   (0.6267846625294576, 0.0075520059253330); (0.6351368996218335, 0.0090802034799088); (0.6440930807264778, 0.0083677903458321); (0.6517846624054248, 0.0075520061080435);
   (0.6601368995732149, 0.0090802035131609); (0.6690930807063274, 0.0083677903694656); (0.6767846624007758, 0.0075520061148917); (0.6851368995713925, 0.0090802035144072);
   (0.6940930807055722, 0.0083677903703514); (0.7017846624006016, 0.0075520061151484); (0.7101368995713242, 0.0090802035144539); (0.7190930807055439, 0.0083677903703846);
   (0.7267846624005951, 0.0075520061151580); (0.7351368995713217, 0.0090802035144556); (0.7440930807055428, 0.0083677903703859); (0.7517846624005948, 0.0075520061151584);
   (0.7601368995713216, 0.0090802035144557); (0.7690930807055428, 0.0083677903703859); (0.7767846624005947, 0.0075520061151582); (0.7851368995713212, 0.0090802035144553);
   (0.7940930807055419, 0.0083677903703849); (0.8017846624005904, 0.0075520061151513); (0.8101368995713065, 0.0090802035144424); (0.8190930807055091, 0.0083677903703521);
   (0.8267846624004417, 0.0075520061149134); (0.8351368995708062, 0.0090802035139990); (0.8440930807043845, 0.0083677903692267); (0.8517846623953340, 0.0075520061067445);
   (0.8601368995536163, 0.0090802034987690); (0.8690930806657630, 0.0083677903305744); (0.8767846622199177, 0.0075520058261904); (0.8851368989632485, 0.0090802029757087);
   (0.8940930793393438, 0.0083677890030966); (0.9017846561954056, 0.0075519961908270); (0.9101368786876466, 0.0090801850117530); (0.9190930337850940, 0.0083677434135881);
   (0.9267844492967046, 0.0075516652889997); (0.9351361823894824, 0.0090795681460502); (0.9440914697635222, 0.0083661794707188); (0.9517773526759212, 0.0075403197470337);
   (0.9601123268826447, 0.0090584894103553); (0.9690383368791622, 0.0083145221422662); (0.9765435975644222, 0.0071703038385618); (0.9843475905968300, 0.0084243645095541);
   (0.9925899849568023, 0.0075382362647406); (0.9984724392286566, 0.0038448372525917)];
  [(0.0014903031915546, 0.0037510607342358); (0.0072292829689733, 0.0073543768436494); (0.0152706433201659, 0.0082188922044430); (0.0228842950591004, 0.0069954183790846);
   (0.0302065006056954, 0.0081117289192841); (0.0389148030413222, 0.0088375506442491); (0.0470464851942232, 0.0073564095093012); (0.0545449075477833, 0.0081621263128964);
   (0.0632817732785539, 0.0088581152644392); (0.0714298055641907, 0.0073674783307315); (0.0789336255755180, 0.0081636521108177); (0.0876713378657107, 0.0088587170846371);
   (0.0958198476142386, 0.0073678011617825); (0.1033238250347866, 0.0081636965883869); (0.1120615619870746, 0.0088587346104475); (0.1202100856391048, 0.0073678105621370);
   (0.1277140676431580, 0.0081636978834872); (0.1364518053135451, 0.0088587351207502); (0.1446003293704059, 0.0073678108358483); (0.1521043115079176, 0.0081636979211968);
   (0.1608420491992137, 0.0088587351356087); (0.1689905732678618, 0.0073678108438179); (0.1764945554092595, 0.0081636979222948); (0.1852322931011644, 0.0088587351360414);
   (0.1933808171701558, 0.0073678108440500); (0.2008847993116666, 0.0081636979223268); (0.2096225370035892, 0.0088587351360540); (0.2177710610725906, 0.0073678108440568);
   (0.2252750432141047, 0.0081636979223277); (0.2340127809060278, 0.0088587351360543); (0.2421613049750295, 0.0073678108440570); (0.2496652871165436, 0.0081636979223277);
   (0.2584030248084668, 0.0088587351360543); (0.2665515488774685, 0.0073678108440569); (0.2740555310189824, 0.0081636979223275); (0.2827932687109053, 0.0088587351360540);
   (0.2909417927799062, 0.0073678108440551); (0.2984457749214162, 0.0081636979223212); (0.3071835126133315, 0.0088587351360452); (0.3153320366823124, 0.0073678108440066);
   (0.3228360188237127, 0.0081636979221540); (0.3315737565154265, 0.0088587351358099); (0.3397222805838739, 0.0073678108427139); (0.3472262627223481, 0.0081636979176929);
   (0.3559640004086881, 0.0088587351295332); (0.3641125244629002, 0.0073678108082251); (0.3716165065233062, 0.0081636977986697); (0.3803542440662738, 0.0088587349620694);
   (0.3885027677406845, 0.0073678098880580); (0.3960067477182239, 0.0081636946231156); (0.4047444814359928, 0.0088587304941137); (0.4128929949773295, 0.0073677853381253);
   (0.4203969193842163, 0.0081636098996617); (0.4291345510464353, 0.0088586112908172); (0.4372827942909449, 0.0073671305216857); (0.4447852364361392, 0.0081613500156478);
   (0.4535201461570558, 0.0088554326359059); (0.4616612167486197, 0.0073497871876039); (0.4691243833810219, 0.0081014715709202); (0.4777874098568710, 0.0087720453684607);
   (0.4857609686183306, 0.0069690909819997); (0.4924125219795232, 0.0069502916194780); (0.5000000000000000, 0.0079494352635906); (0.5075874780204768, 0.0069502916194780);
   (0.5142390313816695, 0.0069690909819997); (0.5222125901431290, 0.0087720453684607); (0.5308756166189782, 0.0081014715709202); (0.5383387832513804, 0.0073497871876039);
   (0.5464798538429442, 0.0088554326359059); (0.5552147635638608, 0.0081613500156478); (0.5627172057090551, 0.0073671305216857); (0.5708654489535647, 0.0088586112908172);
   (0.5796030806157837, 0.0081636098996617); (0.5871070050226705, 0.0073677853381253); (0.5952555185640073, 0.0088587304941137); (0.6039932522817761, 0.0081636946231156);
   (0.6114972322593155, 0.0073678098880580); (0.6196457559337262, 0.0088587349620694); (0.6283834934766938, 0.0081636977986697); (0.6358874755370999, 0.0073678108082251);
   (0.6440359995913119, 0.0088587351295332); (0.6527737372776520, 0.0081636979176929); (0.6602777194161262, 0.0073678108427139); (0.6684262434845736, 0.0088587351358099);
   (0.6771639811762874, 0.0081636979221540); (0.6846679633176876, 0.0073678108440066); (0.6928164873866686, 0.0088587351360452); (0.7015542250785839, 0.0081636979223212);
   (0.7090582072200938, 0.0073678108440551); (0.7172067312890947, 0.0088587351360540); (0.7259444689810175, 0.0081636979223275); (0.7334484511225317, 0.0073678108440569);
   (0.7415969751915332, 0.0088587351360543); (0.7503347128834564, 0.0081636979223277); (0.7578386950249706, 0.0073678108440570); (0.7659872190939722, 0.0088587351360543);
   (0.7747249567858954, 0.0081636979223277); (0.7822289389274094, 0.0073678108440568); (0.7903774629964108, 0.0088587351360540); (0.7991152006883335, 0.0081636979223268);
   (0.8066191828298442, 0.0073678108440500); (0.8147677068988356, 0.0088587351360414); (0.8235054445907406, 0.0081636979222948); (0.8310094267321383, 0.0073678108438179);
   (0.8391579508007865, 0.0088587351356087); (0.8478956884920824, 0.0081636979211968); (0.8553996706295941, 0.0073678108358483); (0.8635481946864549, 0.0088587351207502);
   (0.8722859323568419, 0.0081636978834872); (0.8797899143608953, 0.0073678105621370); (0.8879384380129254, 0.0088587346104475); (0.8966761749652135, 0.0081636965883869);
   (0.9041801523857615, 0.0073678011617825); (0.9123286621342893, 0.0088587170846371); (0.9210663744244820, 0.0081636521108177); (0.9285701944358093, 0.0073674783307315);
   (0.9367182267214462, 0.0088581152644392); (0.9454550924522168, 0.0081621263128964); (0.9529535148057768, 0.0073564095093012); (0.9610851969586778, 0.0088375506442491);
   (0.9697934993943046, 0.0081117289192841); (0.9771157049408997, 0.0069954183790846); (0.9847293566798341, 0.0082188922044430); (0.9927707170310266, 0.0073543768436494);
   (0.9985096968084455, 0.0037510607342358)];
  [(0.0014548197822319, 0.0036617497643730); (0.0070571571839978, 0.0071792726330863); (0.0149070565744476, 0.0080232042948134); (0.0223394308910265, 0.0068288607986302);
   (0.0294872982103217, 0.0079185925164440); (0.0379882601117670, 0.0086271327717670); (0.0459263307848369, 0.0071812569019369); (0.0532462192728361, 0.0079677899721131);
   (0.0617750643909692, 0.0086472077581430); (0.0697290959079004, 0.0071920621799998); (0.0770542535380057, 0.0079692794415125); (0.0855839250593843, 0.0086477952492886);
   (0.0935384226710424, 0.0071923773245972); (0.1008637339625298, 0.0079693228600920); (0.1093934295588109, 0.0086478123578178); (0.1173479407429356, 0.0071923865011337);
   (0.1246732565087971, 0.0079693241243566); (0.1332029528060798, 0.0086478128559704); (0.1411574643853962, 0.0071923867683281); (0.1484827802815386, 0.0079693241611683);
   (0.1570124765992324, 0.0086478128704752); (0.1649669881900556, 0.0071923867761080); (0.1722923040899914, 0.0079693241622401); (0.1808220004082795, 0.0086478128708975);
   (0.1887765119994378, 0.0071923867763345); (0.1961018278994840, 0.0079693241622714); (0.2046315242177894, 0.0086478128709098); (0.2125860358089575, 0.0071923867763411);
   (0.2199113517090069, 0.0079693241622723); (0.2284410480273128, 0.0086478128709102); (0.2363955596184811, 0.0071923867763413); (0.2437208755185307, 0.0079693241622723);
   (0.2522505718368366, 0.0086478128709102); (0.2602050834280050, 0.0071923867763413); (0.2675303993280544, 0.0079693241622722); (0.2760600956463604, 0.0086478128709101);
   (0.2840146072375285, 0.0071923867763410); (0.2913399231375772, 0.0079693241622711); (0.2998696194558817, 0.0086478128709085); (0.3078241310470461, 0.0071923867763318);
   (0.3151494469470741, 0.0079693241622394); (0.3236791432653405, 0.0086478128708640); (0.3316336548564040, 0.0071923867760873); (0.3389589707558786, 0.0079693241613958);
   (0.3474886670731288, 0.0086478128696770); (0.3554431786615003, 0.0071923867695653); (0.3627684945462117, 0.0079693241388877); (0.3712981908363491, 0.0086478128380084);
   (0.3792527023528975, 0.0071923865955552); (0.3865780178437242, 0.0079693235383681); (0.3951077134104896, 0.0086478119930863); (0.4030622230107906, 0.0071923819529516);
   (0.4103875279927365, 0.0079693075164495); (0.4189172042598825, 0.0086477894505341); (0.4268716627364556, 0.0071922580942098); (0.4341966873535842, 0.0079688800695275);
   (0.4427258487375642, 0.0086471880742042); (0.4506789446586002, 0.0071889581966105); (0.4579964988264478, 0.0079574902135438); (0.4665119474863932, 0.0086311891128588);
   (0.4744296778578732, 0.0071041913320724); (0.4815555980077043, 0.0076664896330109); (0.4897311226108838, 0.0082555903138152); (0.4971198369580138, 0.0062102855872453);
   (0.5028801630419861, 0.0062102855872453); (0.5102688773891162, 0.0082555903138152); (0.5184444019922957, 0.0076664896330109); (0.5255703221421267, 0.0071041913320724);
   (0.5334880525136068, 0.0086311891128588); (0.5420035011735521, 0.0079574902135438); (0.5493210553413997, 0.0071889581966105); (0.5572741512624357, 0.0086471880742042);
   (0.5658033126464158, 0.0079688800695275); (0.5731283372635443, 0.0071922580942098); (0.5810827957401175, 0.0086477894505341); (0.5896124720072634, 0.0079693075164495);
   (0.5969377769892094, 0.0071923819529516); (0.6048922865895104, 0.0086478119930863); (0.6134219821562757, 0.0079693235383681); (0.6207472976471025, 0.0071923865955552);
   (0.6287018091636508, 0.0086478128380084); (0.6372315054537883, 0.0079693241388877); (0.6445568213384997, 0.0071923867695653); (0.6525113329268712, 0.0086478128696770);
   (0.6610410292441213, 0.0079693241613958); (0.6683663451435959, 0.0071923867760873); (0.6763208567346595, 0.0086478128708640); (0.6848505530529259, 0.0079693241622394);
   (0.6921758689529538, 0.0071923867763318); (0.7001303805441182, 0.0086478128709085); (0.7086600768624227, 0.0079693241622711); (0.7159853927624714, 0.0071923867763410);
   (0.7239399043536395, 0.0086478128709101); (0.7324696006719456, 0.0079693241622722); (0.7397949165719950, 0.0071923867763413); (0.7477494281631634, 0.0086478128709102);
   (0.7562791244814693, 0.0079693241622723); (0.7636044403815188, 0.0071923867763413); (0.7715589519726872, 0.0086478128709102); (0.7800886482909930, 0.0079693241622723);
   (0.7874139641910425, 0.0071923867763411); (0.7953684757822105, 0.0086478128709098); (0.8038981721005160, 0.0079693241622714); (0.8112234880005622, 0.0071923867763345);
   (0.8191779995917204, 0.0086478128708975); (0.8277076959100086, 0.0079693241622401); (0.8350330118099444, 0.0071923867761080); (0.8429875234007677, 0.0086478128704752);
   (0.8515172197184614, 0.0079693241611683); (0.8588425356146037, 0.0071923867683281); (0.8667970471939203, 0.0086478128559704); (0.8753267434912028, 0.0079693241243566);
   (0.8826520592570644, 0.0071923865011337); (0.8906065704411891, 0.0086478123578178); (0.8991362660374702, 0.0079693228600920); (0.9064615773289576, 0.0071923773245972);
   (0.9144160749406157, 0.0086477952492886); (0.9229457464619942, 0.0079692794415125); (0.9302709040920994, 0.0071920621799998); (0.9382249356090308, 0.0086472077581430);
   (0.9467537807271640, 0.0079677899721131); (0.9540736692151630, 0.0071812569019369); (0.9620117398882330, 0.0086271327717670); (0.9705127017896782, 0.0079185925164440);
   (0.9776605691089735, 0.0068288607986302); (0.9850929434255522, 0.0080232042948134); (0.9929428428160021, 0.0071792726330863); (0.9985451802177682, 0.0036617497643730)]].
