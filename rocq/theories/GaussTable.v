(** Tables of the generalized Gauss rules, transcribed from the C++ sources (decimal literals as exact rationals).
    Sources: /repo/queso/quadrature/integration_points_1d/precomputed_ggq_rules_{optimal,reduced1,reduced2}.cpp and
    gauss_legendre_integration_points.cpp. Generated file; every table cites its lines. *)
From Coq Require Import QArith List.
Import ListNotations.
Local Open Scope Q_scope.

(** gauss_legendre_integration_points.cpp:19-94 *)
Definition gauss_legendre : list (list (Q * Q)) := [
  [(0.5000000000000000000, 1.0000000000000000000)];
  [(0.2113248654051871300, 0.5000000000000000000); (0.7886751345948129000, 0.5000000000000000000)];
  [(0.1127016653792583000, 0.2777777777777777800); (0.5000000000000000000, 0.4444444444444444500); (0.8872983346207417000, 0.2777777777777777800)];
  [(0.0694318442029737100, 0.1739274225687268400); (0.3300094782075718700, 0.3260725774312731000); (0.6699905217924281000, 0.3260725774312731000); (0.9305681557970262000, 0.1739274225687268400)];
  [(0.0469100770306680200, 0.1184634425280947100); (0.2307653449471584500, 0.2393143352496831000); (0.5000000000000000000, 0.2844444444444445000); (0.7692346550528415000, 0.2393143352496831000);
   (0.9530899229693319000, 0.1184634425280947100)];
  [(0.0337652428984239750, 0.0856622461895848700); (0.1693953067668677600, 0.1803807865240694700); (0.3806904069584015000, 0.2339569672863456900); (0.6193095930415985000, 0.2339569672863456900);
   (0.8306046932331322000, 0.1803807865240694700); (0.9662347571015760000, 0.0856622461895848700)];
  [(0.0254460438286207570, 0.0647424830844353200); (0.1292344072003027700, 0.1398526957446383000); (0.2970774243113014000, 0.1909150252525591600); (0.5000000000000000000, 0.2089795918367344800);
   (0.7029225756886985000, 0.1909150252525591600); (0.8707655927996972000, 0.1398526957446383000); (0.9745539561713792000, 0.0647424830844353200)];
  [(0.0198550717512319120, 0.0506142681451883440); (0.1016667612931866400, 0.1111905172266871700); (0.2372337950418355000, 0.1568533229389435200); (0.4082826787521751000, 0.1813418916891808800);
   (0.5917173212478248000, 0.1813418916891808800); (0.7627662049581645000, 0.1568533229389435200); (0.8983332387068134000, 0.1111905172266871700); (0.9801449282487681000, 0.0506142681451883440)];
  [(0.0159198802461869570, 0.0406371941807873600); (0.0819844463366821200, 0.0903240803474285600); (0.1933142836497048200, 0.1303053482014678300); (0.3378732882980955400, 0.1561735385200014000);
   (0.5000000000000000000, 0.1651196775006298400); (0.6621267117019045000, 0.1561735385200014000); (0.8066857163502952000, 0.1303053482014678300); (0.9180155536633179000, 0.0903240803474285600);
   (0.9840801197538130000, 0.0406371941807873600)];
  [(0.0130467357414141280, 0.0333356721543440340); (0.0674683166555077300, 0.0747256745752901800); (0.1602952158504877800, 0.1095431812579910000); (0.2833023029353764000, 0.1346333596549982600);
   (0.4255628305091844000, 0.1477621123573765000); (0.5744371694908156000, 0.1477621123573765000); (0.7166976970646236000, 0.1346333596549982600); (0.8397047841495122000, 0.1095431812579910000);
   (0.9325316833444923000, 0.0747256745752901800); (0.9869532642585859000, 0.0333356721543440340)]].
