(** Generated by tools/gen_data.py from lulua/data/layouts/?.yaml. Do not edit. *)
From Verif Require Import Base LayoutModel.
Open Scope string_scope.
Open Scope list_scope.
Local Open Scope N_scope.

(** ar-alramly.yaml *)
Definition data_ar_alramly : generic_data := mkGD "ar-alramly" [
  mkLD [[]] [
    ("Bl2", CText [1633]);
    ("Bl3", CText [1634]);
    ("Bl4", CText [1635]);
    ("Bl5", CText [1636]);
    ("Bl6", CText [1637]);
    ("Bl7", CText [1638]);
    ("Br6", CText [1639]);
    ("Br5", CText [1640]);
    ("Br4", CText [1641]);
    ("Br3", CText [1632]);
    ("Br2", CText [1610; 1620]);
    ("Br1", CText [41]);
    ("Cl1", CText [1590]);
    ("Cl2", CText [1589]);
    ("Cl3", CText [1583]);
    ("Cl4", CText [1592]);
    ("Cl5", CText [1591]);
    ("Cr7", CText [1594]);
    ("Cr6", CText [1593]);
    ("Cr5", CText [1608]);
    ("Cr4", CText [1582]);
    ("Cr3", CText [1581]);
    ("Cr2", CText [1580]);
    ("Cr1", CText [1563]);
    ("CD_ret", CText [10]);
    ("Dl1", CText [1610]);
    ("Dl2", CText [1606]);
    ("Dl3", CText [1575]);
    ("Dl4", CText [1585]);
    ("Dl5", CText [1604]);
    ("Dr7", CText [1605]);
    ("Dr6", CText [1579]);
    ("Dr5", CText [1578]);
    ("Dr4", CText [1576]);
    ("Dr3", CText [1600]);
    ("Dr2", CText [1619]);
    ("Dr1", CText [1577]);
    ("El2", CText [1588]);
    ("El3", CText [1587]);
    ("El4", CText [1584]);
    ("El5", CText [1586]);
    ("El6", CText [1601]);
    ("Er5", CText [1607]);
    ("Er4", CText [1603]);
    ("Er3", CText [1602]);
    ("Er2", CText [1569]);
    ("Er1", CText [1567]);
    ("Fl_space", CText [32]);
    ("Fr_space", CText [32])];
  mkLD [["El_shift"]; ["Er_shift"]] [
    ("Bl2", CText [33]);
    ("Bl3", CText [34]);
    ("Bl4", CText [1642]);
    ("Bl5", CText [8722]);
    ("Bl6", CText [61]);
    ("Bl7", CText [43]);
    ("Br6", CText [215]);
    ("Br5", CText [8725]);
    ("Br4", CText [1548]);
    ("Br3", CText [46]);
    ("Br2", CText [95]);
    ("Br1", CText [40]);
    ("Cr2", CText [36]);
    ("Cr1", CText [60]);
    ("CD_ret", CText [10]);
    ("Dr2", CText [42]);
    ("Dr1", CText [62]);
    ("Er1", CText [58])]].

(** ar-asmo663.yaml *)
Definition data_ar_asmo663 : generic_data := mkGD "ar-asmo663" [
  mkLD [[]] [
    ("Bl2", CText [49]);
    ("Bl3", CText [50]);
    ("Bl4", CText [51]);
    ("Bl5", CText [52]);
    ("Bl6", CText [53]);
    ("Bl7", CText [54]);
    ("Br6", CText [55]);
    ("Br5", CText [56]);
    ("Br4", CText [57]);
    ("Br3", CText [48]);
    ("Br2", CText [45]);
    ("Br1", CText [94]);
    ("Cl1", CText [1590]);
    ("Cl2", CText [1589]);
    ("Cl3", CText [1579]);
    ("Cl4", CText [1602]);
    ("Cl5", CText [1601]);
    ("Cr7", CText [1594]);
    ("Cr6", CText [1593]);
    ("Cr5", CText [1607]);
    ("Cr4", CText [1582]);
    ("Cr3", CText [1581]);
    ("Cr2", CText [1580]);
    ("Cr1", CText [8211]);
    ("CD_ret", CText [10]);
    ("Dl1", CText [1588]);
    ("Dl2", CText [1587]);
    ("Dl3", CText [1610]);
    ("Dl4", CText [1576]);
    ("Dl5", CText [1604]);
    ("Dr7", CText [1575]);
    ("Dr6", CText [1578]);
    ("Dr5", CText [1606]);
    ("Dr4", CText [1605]);
    ("Dr3", CText [1603]);
    ("Dr2", CText [1615]);
    ("Dr1", CText [1575; 1620]);
    ("El1", CText [1592]);
    ("El2", CText [1591]);
    ("El3", CText [1584]);
    ("El4", CText [1583]);
    ("El5", CText [1586]);
    ("El6", CText [1585]);
    ("Er5", CText [1614]);
    ("Er4", CText [1608]);
    ("Er3", CText [1548]);
    ("Er2", CText [46]);
    ("Er1", CText [1616]);
    ("Fl_space", CText [32]);
    ("Fr_space", CText [32])];
  mkLD [["El_shift"]; ["Er_shift"]] [
    ("Bl1", CText [64]);
    ("Bl2", CText [33]);
    ("Bl3", CText [34]);
    ("Bl4", CText [35]);
    ("Bl6", CText [37]);
    ("Bl7", CText [38]);
    ("Br6", CText [39]);
    ("Br5", CText [40]);
    ("Br4", CText [41]);
    ("Br2", CText [61]);
    ("Cl1", CText [123]);
    ("Cl2", CText [91]);
    ("Cl3", CText [1611]);
    ("Cl4", CText [1617]);
    ("Cl5", CText [1618]);
    ("Cr2", CText [93]);
    ("Cr1", CText [125]);
    ("CD_ret", CText [10]);
    ("Dl1", CText [92]);
    ("Dl2", CText [1612]);
    ("Dl3", CText [1610; 1620]);
    ("Dl5", CText [1575; 1621]);
    ("Dr7", CText [1569]);
    ("Dr6", CText [1577]);
    ("Dr5", CText [1609]);
    ("Dr4", CText [47]);
    ("Dr3", CText [43]);
    ("Dr2", CText [42]);
    ("Dr1", CText [1575; 1619]);
    ("El1", CText [124]);
    ("El2", CText [1613]);
    ("El6", CText [1563]);
    ("Er5", CText [58]);
    ("Er4", CText [1608; 1620]);
    ("Er3", CText [60]);
    ("Er2", CText [62]);
    ("Er1", CText [1567])]].

(** ar-ergoarabic.yaml *)
Definition data_ar_ergoarabic : generic_data := mkGD "ar-ergoarabic" [
  mkLD [[]] [
    ("Bl1", CText [96]);
    ("Bl2", CText [49]);
    ("Bl3", CText [50]);
    ("Bl4", CText [51]);
    ("Bl5", CText [52]);
    ("Bl6", CText [53]);
    ("Bl7", CText [54]);
    ("Br6", CText [55]);
    ("Br5", CText [56]);
    ("Br4", CText [57]);
    ("Br3", CText [48]);
    ("Br2", CText [45]);
    ("Br1", CText [61]);
    ("Br_bs", CText [8]);
    ("Cl_tab", CText [9]);
    ("Cl1", CText [1583]);
    ("Cl2", CText [1589]);
    ("Cl3", CText [1579]);
    ("Cl4", CText [1602]);
    ("Cl5", CText [1601]);
    ("Cr7", CText [1569]);
    ("Cr6", CText [1593]);
    ("Cr5", CText [1607]);
    ("Cr4", CText [1608]);
    ("Cr3", CText [1577]);
    ("Cr2", CText [93]);
    ("Cr1", CText [91]);
    ("CD_ret", CText [10]);
    ("Dl1", CText [1588]);
    ("Dl2", CText [1587]);
    ("Dl3", CText [1610]);
    ("Dl4", CText [1576]);
    ("Dl5", CText [1604]);
    ("Dr7", CText [1575]);
    ("Dr6", CText [1578]);
    ("Dr5", CText [1606]);
    ("Dr4", CText [1605]);
    ("Dr3", CText [1603]);
    ("Dr2", CText [39]);
    ("Dr1", CText [92]);
    ("El2", CText [1610; 1620]);
    ("El3", CText [1609]);
    ("El4", CText [1591]);
    ("El5", CText [1585]);
    ("El6", CText [1582]);
    ("Er5", CText [1581]);
    ("Er4", CText [1580]);
    ("Er3", CText [1548]);
    ("Er2", CText [46]);
    ("Er1", CText [47]);
    ("Fl_space", CText [32]);
    ("Fr_space", CText [32])];
  mkLD [["El_shift"]; ["Er_shift"]] [
    ("Bl1", CText [126]);
    ("Bl2", CText [33]);
    ("Bl3", CText [64]);
    ("Bl4", CText [35]);
    ("Bl5", CText [36]);
    ("Bl6", CText [37]);
    ("Bl7", CText [94]);
    ("Br6", CText [38]);
    ("Br5", CText [42]);
    ("Br4", CText [41]);
    ("Br3", CText [40]);
    ("Br2", CText [95]);
    ("Br1", CText [43]);
    ("Cl1", CText [1584]);
    ("Cl2", CText [1590]);
    ("Cl3", CText [1615]);
    ("Cl4", CText [1612]);
    ("Cl5", CText [1617]);
    ("Cr7", CText [1575; 1621]);
    ("Cr6", CText [1594]);
    ("Cr5", CText [247]);
    ("Cr4", CText [1608; 1620]);
    ("Cr3", CText [1563]);
    ("Cr2", CText [125]);
    ("Cr1", CText [123]);
    ("Dl1", CText [1616]);
    ("Dl2", CText [1613]);
    ("Dl3", CText [1614]);
    ("Dl4", CText [1611]);
    ("Dl5", CText [1575; 1619]);
    ("Dr7", CText [1575; 1620]);
    ("Dr6", CText [1600]);
    ("Dr5", CText [215]);
    ("Dr4", CText [44]);
    ("Dr3", CText [58]);
    ("Dr2", CText [34]);
    ("El3", CText [1618]);
    ("El4", CText [1592]);
    ("El5", CText [1586]);
    ("El6", CText [8230]);
    ("Er5", CText [187]);
    ("Er4", CText [171]);
    ("Er3", CText [62]);
    ("Er2", CText [60]);
    ("Er1", CText [1567])];
  mkLD [["Fr_altgr"]] [
    ("Bl2", CText [1633]);
    ("Bl3", CText [1634]);
    ("Bl4", CText [1635]);
    ("Bl5", CText [1636]);
    ("Bl6", CText [1637]);
    ("Bl7", CText [1638]);
    ("Br6", CText [1639]);
    ("Br5", CText [1640]);
    ("Br4", CText [1641]);
    ("Br3", CText [1632]);
    ("Br1", CText [61; 824]);
    ("Cl5", CText [1700]);
    ("Dl4", CText [1662]);
    ("Dl5", CText [1648]);
    ("Dr7", CText [1649]);
    ("Dr5", CText [1643]);
    ("Dr3", CText [1711; 8206]);
    ("Dr2", CText [10217]);
    ("Dr1", CText [10216]);
    ("El2", CText [8250]);
    ("El3", CText [8249]);
    ("El5", CText [1688]);
    ("Er4", CText [1670]);
    ("Er1", CText [1645])];
  mkLD [["Fr_altgr"; "El_shift"]; ["Fr_altgr"; "Er_shift"]] [
    ("Bl6", CText [8240]);
    ("Br2", CText [8209]);
    ("Br1", CText [8776]);
    ("Cl1", CText [8294]);
    ("Cl2", CText [8295]);
    ("Cl3", CText [8296]);
    ("Cl4", CText [8297]);
    ("Cr7", CText [8234]);
    ("Cr6", CText [8235]);
    ("Cr5", CText [8236]);
    ("Cr3", CText [8206]);
    ("Cr2", CText [8207]);
    ("Cr1", CText [1564]);
    ("Dr2", CText [8205]);
    ("Dr1", CText [8239]);
    ("Er1", CText [8204])]].

(** ar-idlebi.yaml *)
Definition data_ar_idlebi : generic_data := mkGD "ar-idlebi" [
  mkLD [[]] [
    ("Bl1", CText [64]);
    ("Bl2", CText [1633]);
    ("Bl3", CText [1634]);
    ("Bl4", CText [1635]);
    ("Bl5", CText [1636]);
    ("Bl6", CText [1637]);
    ("Bl7", CText [1638]);
    ("Br6", CText [1639]);
    ("Br5", CText [1640]);
    ("Br4", CText [1641]);
    ("Br3", CText [1632]);
    ("Br2", CText [95]);
    ("Cl_tab", CText [9]);
    ("Cl1", CText [1617; 1614]);
    ("Cl2", CText [1616]);
    ("Cl3", CText [1614]);
    ("Cl4", CText [1615]);
    ("Cl5", CText [1591]);
    ("Cr7", CText [1589]);
    ("Cr6", CText [1601]);
    ("Cr5", CText [1575]);
    ("Cr4", CText [1610]);
    ("Cr3", CText [1588]);
    ("Cr2", CText [1587]);
    ("Cr1", CText [58]);
    ("CD_ret", CText [10]);
    ("Dl1", CText [1606]);
    ("Dl2", CText [1578]);
    ("Dl3", CText [1593]);
    ("Dl4", CText [1605]);
    ("Dl5", CText [1576]);
    ("Dr7", CText [1575; 1621]);
    ("Dr6", CText [1604]);
    ("Dr5", CText [1607]);
    ("Dr4", CText [1585]);
    ("Dr3", CText [1608]);
    ("Dr2", CText [1609]);
    ("Dr1", CText [46]);
    ("El1", CText [1618]);
    ("El2", CText [1602]);
    ("El3", CText [1575; 1620]);
    ("El4", CText [1580]);
    ("El5", CText [1581]);
    ("El6", CText [1582]);
    ("Er5", CText [1584]);
    ("Er4", CText [1603]);
    ("Er3", CText [1583]);
    ("Er2", CText [1577]);
    ("Er1", CText [1594]);
    ("Fl_space", CText [32]);
    ("Fr_space", CText [32])];
  mkLD [["El_shift"]; ["Er_shift"]] [
    ("Bl1", CText [94]);
    ("Bl2", CText [33]);
    ("Bl3", CText [34]);
    ("Bl4", CText [35]);
    ("Bl6", CText [1642]);
    ("Bl7", CText [38]);
    ("Br6", CText [39]);
    ("Br5", CText [40]);
    ("Br4", CText [41]);
    ("Br2", CText [61]);
    ("Cl1", CText [1586]);
    ("Cl2", CText [1617; 1613]);
    ("Cl3", CText [1611]);
    ("Cl4", CText [1612]);
    ("Cl5", CText [1592]);
    ("Cr7", CText [1590]);
    ("Cr5", CText [1617; 1616]);
    ("Cr3", CText [91]);
    ("Cr2", CText [93]);
    ("Cr1", CText [60]);
    ("CD_ret", CText [10]);
    ("Dl1", CText [1569]);
    ("Dl2", CText [1579]);
    ("Dl3", CText [1617; 1612]);
    ("Dr7", CText [1608; 1620]);
    ("Dr6", CText [123]);
    ("Dr5", CText [125]);
    ("Dr4", CText [92]);
    ("Dr3", CText [47]);
    ("Dr2", CText [1613]);
    ("Dr1", CText [62]);
    ("El1", CText [1617; 1615]);
    ("El3", CText [1610; 1620]);
    ("Er4", CText [1563]);
    ("Er3", CText [1575; 1619]);
    ("Er2", CText [124]);
    ("Er1", CText [42])]].

(** ar-khorshid.yaml *)
Definition data_ar_khorshid : generic_data := mkGD "ar-khorshid" [
  mkLD [[]] [
    ("Bl1", CText [1569]);
    ("Bl2", CText [49]);
    ("Bl3", CText [50]);
    ("Bl4", CText [51]);
    ("Bl5", CText [52]);
    ("Bl6", CText [53]);
    ("Bl7", CText [54]);
    ("Br6", CText [55]);
    ("Br5", CText [56]);
    ("Br4", CText [57]);
    ("Br3", CText [48]);
    ("Br2", CText [45]);
    ("Br1", CText [61]);
    ("Cl1", CText [1601]);
    ("Cl2", CText [1610; 1620]);
    ("Cl3", CText [1588]);
    ("Cl4", CText [1604; 1575]);
    ("Cl5", CText [1591]);
    ("Cr7", CText [1608; 1620]);
    ("Cr6", CText [1579]);
    ("Cr5", CText [1587]);
    ("Cr4", CText [1589]);
    ("Cr3", CText [1580]);
    ("Cr2", CText [1582]);
    ("Cr1", CText [1594]);
    ("CD_ret", CText [10]);
    ("Dl1", CText [1586]);
    ("Dl2", CText [1604]);
    ("Dl3", CText [1605]);
    ("Dl4", CText [1606]);
    ("Dl5", CText [1584]);
    ("Dr7", CText [1607]);
    ("Dr6", CText [1575]);
    ("Dr5", CText [1608]);
    ("Dr4", CText [1610]);
    ("Dr3", CText [1593]);
    ("Dr2", CText [1602]);
    ("El2", CText [1576]);
    ("El3", CText [1581]);
    ("El4", CText [1578]);
    ("El5", CText [1583]);
    ("El6", CText [1585]);
    ("Er5", CText [1609]);
    ("Er4", CText [1577]);
    ("Er3", CText [1603]);
    ("Er2", CText [1590]);
    ("Er1", CText [1592]);
    ("Fl_space", CText [32]);
    ("Fr_space", CText [32])];
  mkLD [["El_shift"]; ["Er_shift"]] [
    ("Bl2", CText [33]);
    ("Bl3", CText [64]);
    ("Bl4", CText [35]);
    ("Bl5", CText [36]);
    ("Bl6", CText [37]);
    ("Bl7", CText [94]);
    ("Br6", CText [38]);
    ("Br5", CText [42]);
    ("Br4", CText [40]);
    ("Br3", CText [41]);
    ("Br2", CText [95]);
    ("Br1", CText [43])]].

(** ar-linux.yaml *)
Definition data_ar_linux : generic_data := mkGD "ar-linux" [
  mkLD [[]] [
    ("Bl1", CText [1584]);
    ("Bl2", CText [1633]);
    ("Bl3", CText [1634]);
    ("Bl4", CText [1635]);
    ("Bl5", CText [1636]);
    ("Bl6", CText [1637]);
    ("Bl7", CText [1638]);
    ("Br6", CText [1639]);
    ("Br5", CText [1640]);
    ("Br4", CText [1641]);
    ("Br3", CText [1632]);
    ("Br2", CText [45]);
    ("Br1", CText [61]);
    ("Cl_tab", CText [9]);
    ("Cl1", CText [1590]);
    ("Cl2", CText [1589]);
    ("Cl3", CText [1579]);
    ("Cl4", CText [1602]);
    ("Cl5", CText [1601]);
    ("Cr7", CText [1594]);
    ("Cr6", CText [1593]);
    ("Cr5", CText [1607]);
    ("Cr4", CText [1582]);
    ("Cr3", CText [1581]);
    ("Cr2", CText [1580]);
    ("Cr1", CText [1583]);
    ("CD_ret", CText [10]);
    ("Dl1", CText [1588]);
    ("Dl2", CText [1587]);
    ("Dl3", CText [1610]);
    ("Dl4", CText [1576]);
    ("Dl5", CText [1604]);
    ("Dr7", CText [1575]);
    ("Dr6", CText [1578]);
    ("Dr5", CText [1606]);
    ("Dr4", CText [1605]);
    ("Dr3", CText [1603]);
    ("Dr2", CText [1591]);
    ("Dr1", CText [92]);
    ("El1", CText [124]);
    ("El2", CText [1610; 1620]);
    ("El3", CText [1569]);
    ("El4", CText [1608; 1620]);
    ("El5", CText [1585]);
    ("El6", CText [1604; 1575]);
    ("Er5", CText [1609]);
    ("Er4", CText [1577]);
    ("Er3", CText [1608]);
    ("Er2", CText [1586]);
    ("Er1", CText [1592]);
    ("Fl_space", CText [32]);
    ("Fr_space", CText [32])];
  mkLD [["El_shift"]; ["Er_shift"]] [
    ("Bl1", CText [1617]);
    ("Bl2", CText [33]);
    ("Bl3", CText [64]);
    ("Bl4", CText [35]);
    ("Bl5", CText [36]);
    ("Bl6", CText [1642]);
    ("Bl7", CText [94]);
    ("Br6", CText [38]);
    ("Br5", CText [42]);
    ("Br4", CText [41]);
    ("Br3", CText [40]);
    ("Br2", CText [95]);
    ("Br1", CText [43]);
    ("Cl1", CText [1614]);
    ("Cl2", CText [1611]);
    ("Cl3", CText [1615]);
    ("Cl4", CText [1612]);
    ("Cl5", CText [1604; 1575; 1621]);
    ("Cr7", CText [1575; 1621]);
    ("Cr6", CText [96]);
    ("Cr5", CText [247]);
    ("Cr4", CText [215]);
    ("Cr3", CText [1563]);
    ("Cr2", CText [60]);
    ("Cr1", CText [62]);
    ("CD_ret", CText [10]);
    ("Dl1", CText [1616]);
    ("Dl2", CText [1613]);
    ("Dl3", CText [93]);
    ("Dl4", CText [91]);
    ("Dl5", CText [1604; 1575; 1620]);
    ("Dr7", CText [1575; 1620]);
    ("Dr6", CText [1600]);
    ("Dr5", CText [1548]);
    ("Dr4", CText [47]);
    ("Dr3", CText [58]);
    ("Dr2", CText [34]);
    ("Dr1", CText [8230]);
    ("El1", CText [166]);
    ("El2", CText [126]);
    ("El3", CText [1618]);
    ("El4", CText [125]);
    ("El5", CText [123]);
    ("El6", CText [1604; 1575; 1619]);
    ("Er5", CText [1575; 1619]);
    ("Er4", CText [39]);
    ("Er3", CText [44]);
    ("Er2", CText [46]);
    ("Er1", CText [1567])]].

(** ar-lulua.yaml *)
Definition data_ar_lulua : generic_data := mkGD "ar-lulua" [
  mkLD [[]] [
    ("Bl2", CText [1633]);
    ("Bl3", CText [1634]);
    ("Bl4", CText [1635]);
    ("Bl5", CText [1636]);
    ("Bl6", CText [1637]);
    ("Bl7", CText [1638]);
    ("Br6", CText [1639]);
    ("Br5", CText [1640]);
    ("Br4", CText [1641]);
    ("Br3", CText [1632]);
    ("Br_bs", CText [8]);
    ("Cl_tab", CText [9]);
    ("Cl1", CText [1579]);
    ("Cl2", CText [1591]);
    ("Cl3", CText [1601]);
    ("Cl4", CText [1577]);
    ("Cl5", CText [1620]);
    ("Cr7", CText [1602]);
    ("Cr6", CText [1583]);
    ("Cr5", CText [1593]);
    ("Cr4", CText [1581]);
    ("Cr3", CText [1590]);
    ("Cr2", CText [1569]);
    ("Cr1", CText [1592]);
    ("CD_ret", CText [10]);
    ("Dl1", CText [1576]);
    ("Dl2", CText [1605]);
    ("Dl3", CText [1575]);
    ("Dl4", CText [1608]);
    ("Dl5", CText [1578]);
    ("Dr7", CText [1585]);
    ("Dr6", CText [1604]);
    ("Dr5", CText [1610]);
    ("Dr4", CText [1606]);
    ("Dr3", CText [1587]);
    ("Dr2", CText [1589]);
    ("El2", CText [1584]);
    ("El3", CText [1609]);
    ("El4", CText [1580]);
    ("El5", CText [1588]);
    ("El6", CText [1621]);
    ("Er5", CText [1607]);
    ("Er4", CText [1586]);
    ("Er3", CText [1603]);
    ("Er2", CText [1582]);
    ("Er1", CText [1594]);
    ("Fl_space", CText [32]);
    ("Fr_space", CText [32])];
  mkLD [["El_shift"]; ["Er_shift"]] [
    ("Bl5", CText [36]);
    ("Bl6", CText [38]);
    ("Br6", CText [126]);
    ("Br5", CText [94]);
    ("Br4", CText [92]);
    ("Cl1", CText [64]);
    ("Cl2", CText [34]);
    ("Cl3", CText [93]);
    ("Cl4", CText [41]);
    ("Cl5", CText [125]);
    ("Cr7", CText [123]);
    ("Cr6", CText [40]);
    ("Cr5", CText [91]);
    ("Cr4", CText [42]);
    ("Cr3", CText [8230]);
    ("Cr2", CText [63]);
    ("Cr1", CText [37]);
    ("Dl1", CText [45]);
    ("Dl2", CText [1563]);
    ("Dl3", CText [58]);
    ("Dl4", CText [1567]);
    ("Dl5", CText [187]);
    ("Dr7", CText [171]);
    ("Dr6", CText [46]);
    ("Dr5", CText [1548]);
    ("Dr4", CText [33]);
    ("Dr3", CText [124]);
    ("Dr2", CText [95]);
    ("El2", CText [96]);
    ("El3", CText [43]);
    ("El4", CText [62]);
    ("El5", CText [39]);
    ("El6", CText [8250]);
    ("Er5", CText [8249]);
    ("Er4", CText [61]);
    ("Er3", CText [60]);
    ("Er2", CText [35]);
    ("Er1", CText [59])];
  mkLD [["Dl_caps"]; ["Dr1"]] [
    ("Cl3", CText [1648]);
    ("Cl4", CText [1649]);
    ("Cr6", CText [1600]);
    ("Cr5", CText [1612]);
    ("Dl2", CText [1613]);
    ("Dl3", CText [1617]);
    ("Dl4", CText [1616]);
    ("Dl5", CText [1619]);
    ("Dr7", CText [1611]);
    ("Dr6", CText [1615]);
    ("Dr5", CText [1614]);
    ("Dr4", CText [1618])];
  mkLD [["Fr_altgr"]; ["El1"]] [
    ("Cl1", CText [1635]);
    ("Cl2", CText [1634]);
    ("Cl3", CText [1633]);
    ("Cl4", CText [1632]);
    ("Cl5", CText [1642]);
    ("Dl1", CText [1639]);
    ("Dl2", CText [1638]);
    ("Dl3", CText [1637]);
    ("Dl4", CText [1636]);
    ("Dl5", CText [8722]);
    ("El2", CText [1644]);
    ("El3", CText [1643]);
    ("El4", CText [1641]);
    ("El5", CText [1640]);
    ("El6", CText [1545]);
    ("Cr2", CText [8295]);
    ("Cr1", CText [8294]);
    ("Dr2", CText [8297])]].

(** ar-malas.yaml *)
Definition data_ar_malas : generic_data := mkGD "ar-malas" [
  mkLD [[]] [
    ("Bl2", CText [49]);
    ("Bl3", CText [50]);
    ("Bl4", CText [51]);
    ("Bl5", CText [52]);
    ("Bl6", CText [53]);
    ("Bl7", CText [54]);
    ("Br6", CText [55]);
    ("Br5", CText [56]);
    ("Br4", CText [57]);
    ("Br3", CText [48]);
    ("Br2", CText [45]);
    ("Br1", CText [61]);
    ("Cl_tab", CText [9]);
    ("Cl1", CText [1602]);
    ("Cl2", CText [1594]);
    ("Cl3", CText [1593]);
    ("Cl4", CText [1610]);
    ("Cl5", CText [1577]);
    ("Cr7", CText [1601]);
    ("Cr6", CText [1591]);
    ("Cr5", CText [1585]);
    ("Cr4", CText [1589]);
    ("Cr3", CText [1576]);
    ("Cr2", CText [1588]);
    ("Cr1", CText [1590]);
    ("CD_ret", CText [10]);
    ("Dl1", CText [1607]);
    ("Dl2", CText [1580]);
    ("Dl3", CText [1603]);
    ("Dl4", CText [1575]);
    ("Dl5", CText [1608]);
    ("Dr7", CText [1578]);
    ("Dr6", CText [1583]);
    ("Dr5", CText [1604]);
    ("Dr4", CText [1606]);
    ("Dr3", CText [1605]);
    ("Dr2", CText [1587]);
    ("El1", CText [92]);
    ("El2", CText [1582]);
    ("El3", CText [1609]);
    ("El4", CText [1575; 1621]);
    ("El5", CText [1575; 1620]);
    ("El6", CText [1581]);
    ("Er5", CText [1610; 1620]);
    ("Er4", CText [1586]);
    ("Er3", CText [46]);
    ("Er2", CText [1579]);
    ("Er1", CText [1584]);
    ("Fl_space", CText [32]);
    ("Fr_space", CText [32])];
  mkLD [["El_shift"]; ["Er_shift"]] [
    ("Bl2", CText [33]);
    ("Bl3", CText [64]);
    ("Bl4", CText [35]);
    ("Bl5", CText [36]);
    ("Bl6", CText [37]);
    ("Bl7", CText [94]);
    ("Br6", CText [38]);
    ("Br5", CText [42]);
    ("Br4", CText [40]);
    ("Br3", CText [41]);
    ("Br2", CText [95]);
    ("Br1", CText [43]);
    ("Cl_tab", CText [9]);
    ("Cl1", CText [1614]);
    ("Cl2", CText [1611]);
    ("Cl3", CText [1615]);
    ("Cl4", CText [1612]);
    ("Cl5", CText [1617]);
    ("Cr6", CText [1592]);
    ("Cr5", CText [247]);
    ("Cr4", CText [215]);
    ("Cr3", CText [1563]);
    ("Cr2", CText [62]);
    ("Cr1", CText [60]);
    ("CD_ret", CText [10]);
    ("Dl1", CText [1616]);
    ("Dl2", CText [1613]);
    ("Dl3", CText [91]);
    ("Dl4", CText [93]);
    ("Dl5", CText [1608; 1620]);
    ("Dr6", CText [1600]);
    ("Dr5", CText [1548]);
    ("Dr4", CText [47]);
    ("Dr3", CText [58]);
    ("Dr2", CText [34]);
    ("El1", CText [124]);
    ("El2", CText [126]);
    ("El3", CText [1618]);
    ("El4", CText [1575; 1619]);
    ("El5", CText [1569]);
    ("El6", CText [123]);
    ("Er5", CText [125]);
    ("Er4", CText [8216]);
    ("Er3", CText [8217]);
    ("Er2", CText [44]);
    ("Er1", CText [1567]);
    ("Fl_space", CText [32]);
    ("Fr_space", CText [32])]].

(** ar-osman.yaml *)
Definition data_ar_osman : generic_data := mkGD "ar-osman" [
  mkLD [[]] [
    ("Bl1", CText [1608; 1620]);
    ("Bl2", CText [49]);
    ("Bl3", CText [50]);
    ("Bl4", CText [51]);
    ("Bl5", CText [52]);
    ("Bl6", CText [53]);
    ("Bl7", CText [54]);
    ("Br6", CText [55]);
    ("Br5", CText [56]);
    ("Br4", CText [57]);
    ("Br3", CText [48]);
    ("Br2", CText [45]);
    ("Br1", CText [61]);
    ("Cl1", CText [1592]);
    ("Cl2", CText [1590]);
    ("Cl3", CText [1589]);
    ("Cl4", CText [1602]);
    ("Cl5", CText [1601]);
    ("Cr7", CText [1594]);
    ("Cr6", CText [1593]);
    ("Cr5", CText [1607]);
    ("Cr4", CText [1581]);
    ("Cr3", CText [1580]);
    ("Cr2", CText [1582]);
    ("Cr1", CText [1569]);
    ("CD_ret", CText [10]);
    ("Dl1", CText [1591]);
    ("Dl2", CText [1579]);
    ("Dl3", CText [1578]);
    ("Dl4", CText [1576]);
    ("Dl5", CText [1604]);
    ("Dr7", CText [1575]);
    ("Dr6", CText [1606]);
    ("Dr5", CText [1605]);
    ("Dr4", CText [1608]);
    ("Dr3", CText [1587]);
    ("Dr2", CText [1588]);
    ("El2", CText [1610; 1620]);
    ("El3", CText [1584]);
    ("El4", CText [1583]);
    ("El5", CText [1604; 1575]);
    ("El6", CText [1610]);
    ("Er5", CText [1609]);
    ("Er4", CText [1585]);
    ("Er3", CText [1586]);
    ("Er2", CText [1603]);
    ("Er1", CText [1577]);
    ("Fl_space", CText [32]);
    ("Fr_space", CText [32])];
  mkLD [["El_shift"]; ["Er_shift"]] [
    ("Bl2", CText [33]);
    ("Bl3", CText [64]);
    ("Bl4", CText [35]);
    ("Bl5", CText [36]);
    ("Bl6", CText [37]);
    ("Bl7", CText [94]);
    ("Br6", CText [38]);
    ("Br5", CText [42]);
    ("Br4", CText [40]);
    ("Br3", CText [41]);
    ("Br2", CText [95]);
    ("Br1", CText [43]);
    ("Cl1", CText [1614]);
    ("Cl2", CText [1611]);
    ("Cl3", CText [1615]);
    ("Cl4", CText [1612]);
    ("Cl5", CText [1604; 1575; 1621]);
    ("Cr7", CText [1575; 1621]);
    ("Cr6", CText [96]);
    ("Cr5", CText [247]);
    ("Cr4", CText [215]);
    ("Cr3", CText [1563]);
    ("Cr2", CText [62]);
    ("Cr1", CText [60]);
    ("CD_ret", CText [10]);
    ("Dl1", CText [1616]);
    ("Dl2", CText [1613]);
    ("Dl3", CText [91]);
    ("Dl4", CText [93]);
    ("Dl5", CText [1604; 1575; 1620]);
    ("Dr7", CText [1575; 1620]);
    ("Dr6", CText [1600]);
    ("Dr5", CText [1548]);
    ("Dr4", CText [47]);
    ("Dr3", CText [58]);
    ("Dr2", CText [34]);
    ("El2", CText [126]);
    ("El3", CText [1618]);
    ("El4", CText [123]);
    ("El5", CText [125]);
    ("El6", CText [1604; 1575; 1619]);
    ("Er5", CText [1575; 1619]);
    ("Er4", CText [39]);
    ("Er3", CText [247]);
    ("Er2", CText [215]);
    ("Er1", CText [1563])]].

(** ar-osx.yaml *)
Definition data_ar_osx : generic_data := mkGD "ar-osx" [
  mkLD [[]] [
    ("Bl1", CText [167]);
    ("Bl2", CText [1633]);
    ("Bl3", CText [1634]);
    ("Bl4", CText [1635]);
    ("Bl5", CText [1636]);
    ("Bl6", CText [1637]);
    ("Bl7", CText [1638]);
    ("Br6", CText [1639]);
    ("Br5", CText [1640]);
    ("Br4", CText [1641]);
    ("Br3", CText [1632]);
    ("Br2", CText [45]);
    ("Br1", CText [61]);
    ("Br_bs", CText [8]);
    ("Cl_tab", CText [9]);
    ("Cl1", CText [1590]);
    ("Cl2", CText [1589]);
    ("Cl3", CText [1579]);
    ("Cl4", CText [1602]);
    ("Cl5", CText [1601]);
    ("Cr7", CText [1594]);
    ("Cr6", CText [1593]);
    ("Cr5", CText [1607]);
    ("Cr4", CText [1582]);
    ("Cr3", CText [1581]);
    ("Cr2", CText [1580]);
    ("Cr1", CText [1577]);
    ("CD_ret", CText [10]);
    ("Dl1", CText [1588]);
    ("Dl2", CText [1587]);
    ("Dl3", CText [1610]);
    ("Dl4", CText [1576]);
    ("Dl5", CText [1604]);
    ("Dr7", CText [1575]);
    ("Dr6", CText [1578]);
    ("Dr5", CText [1606]);
    ("Dr4", CText [1605]);
    ("Dr3", CText [1603]);
    ("Dr2", CText [1563]);
    ("Dr1", CText [92]);
    ("El1", CText [1600]);
    ("El2", CText [1592]);
    ("El3", CText [1591]);
    ("El4", CText [1584]);
    ("El5", CText [1583]);
    ("El6", CText [1586]);
    ("Er5", CText [1585]);
    ("Er4", CText [1608]);
    ("Er3", CText [1548]);
    ("Er2", CText [46]);
    ("Er1", CText [47]);
    ("Fl_space", CText [32]);
    ("Fr_space", CText [32])];
  mkLD [["El_shift"]; ["Er_shift"]] [
    ("Bl1", CText [177]);
    ("Bl2", CText [33]);
    ("Bl3", CText [64]);
    ("Bl4", CText [35]);
    ("Bl5", CText [36]);
    ("Bl6", CText [37]);
    ("Bl7", CText [94]);
    ("Br6", CText [38]);
    ("Br5", CText [42]);
    ("Br4", CText [41]);
    ("Br3", CText [40]);
    ("Br2", CText [45]);
    ("Br1", CText [43]);
    ("Cl1", CText [1614]);
    ("Cl2", CText [1611]);
    ("Cl3", CText [1616]);
    ("Cl4", CText [1613]);
    ("Cl5", CText [1615]);
    ("Cr7", CText [1612]);
    ("Cr6", CText [1618]);
    ("Cr5", CText [1617]);
    ("Cr4", CText [93]);
    ("Cr3", CText [91]);
    ("Cr2", CText [125]);
    ("Cr1", CText [123]);
    ("Dl1", CText [171]);
    ("Dl2", CText [187]);
    ("Dl3", CText [1609]);
    ("Dr7", CText [1575; 1619]);
    ("Dr3", CText [58]);
    ("Dr2", CText [34]);
    ("Dr1", CText [124]);
    ("El2", CText [39]);
    ("El4", CText [1610; 1620]);
    ("El5", CText [1569]);
    ("El6", CText [1575; 1620]);
    ("Er5", CText [1575; 1621]);
    ("Er4", CText [1608; 1620]);
    ("Er3", CText [62]);
    ("Er2", CText [60]);
    ("Er1", CText [1567])]].

(** ar-phonetic.yaml *)
Definition data_ar_phonetic : generic_data := mkGD "ar-phonetic" [
  mkLD [[]] [
    ("Bl2", CText [39]);
    ("Bl3", CText [1634]);
    ("Bl4", CText [1635]);
    ("Bl5", CText [1636]);
    ("Bl6", CText [1637]);
    ("Bl7", CText [1638]);
    ("Br1", CText [61]);
    ("Br2", CText [45]);
    ("Br3", CText [1632]);
    ("Br4", CText [1641]);
    ("Br5", CText [1640]);
    ("Br6", CText [1639]);
    ("Cl1", CText [1602]);
    ("Cl2", CText [1608]);
    ("Cl3", CText [1593]);
    ("Cl4", CText [1585]);
    ("Cl5", CText [1578]);
    ("CD_ret", CText [10]);
    ("Cr1", CText [93]);
    ("Cr2", CText [91]);
    ("Cr3", CText [1649]);
    ("Cr4", CText [1615]);
    ("Cr5", CText [1616]);
    ("Cr6", CText [1614]);
    ("Cr7", CText [1610]);
    ("Dl1", CText [1575]);
    ("Dl2", CText [1587]);
    ("Dl3", CText [1583]);
    ("Dl4", CText [1601]);
    ("Dl5", CText [1569]);
    ("Dr2", CText [35]);
    ("Dr3", CText [1563]);
    ("Dr4", CText [1604]);
    ("Dr5", CText [1603]);
    ("Dr6", CText [1584]);
    ("Dr7", CText [1607]);
    ("El1", CText [92]);
    ("El2", CText [1586]);
    ("El3", CText [1579]);
    ("El4", CText [1589]);
    ("El5", CText [1618]);
    ("El6", CText [1576]);
    ("Er1", CText [47]);
    ("Er2", CText [46]);
    ("Er3", CText [1548]);
    ("Er4", CText [1605]);
    ("Er5", CText [1606]);
    ("Fl_space", CText [32])];
  mkLD [["El_shift"]; ["Er_shift"]] [
    ("Bl2", CText [34]);
    ("Bl3", CText [64]);
    ("Bl4", CText [163]);
    ("Bl5", CText [36]);
    ("Bl6", CText [37]);
    ("Bl7", CText [94]);
    ("Br1", CText [43]);
    ("Br2", CText [95]);
    ("Br3", CText [41]);
    ("Br4", CText [40]);
    ("Br5", CText [42]);
    ("Br6", CText [38]);
    ("Cl1", CText [1610; 1620]);
    ("Cl2", CText [1608; 1620]);
    ("Cl3", CText [1648]);
    ("Cl4", CText [1619]);
    ("Cl5", CText [1591]);
    ("Cr1", CText [125]);
    ("Cr2", CText [123]);
    ("Cr3", CText [1575; 1619]);
    ("Cr4", CText [1612]);
    ("Cr5", CText [1613]);
    ("Cr6", CText [1611]);
    ("Cr7", CText [1609]);
    ("Dl1", CText [1575; 1620]);
    ("Dl2", CText [1588]);
    ("Dl3", CText [1590]);
    ("Dl4", CText [1602]);
    ("Dl5", CText [1594]);
    ("Dr2", CText [126]);
    ("Dr3", CText [58]);
    ("Dr4", CText [1575; 1621]);
    ("Dr5", CText [1582]);
    ("Dr6", CText [1580]);
    ("Dr7", CText [1581]);
    ("El1", CText [124]);
    ("El2", CText [1592]);
    ("El3", CText [1577]);
    ("El4", CText [1620]);
    ("El5", CText [1617]);
    ("El6", CText [1600]);
    ("Er1", CText [1567]);
    ("Er2", CText [62]);
    ("Er3", CText [60]);
    ("Er4", CText [1762]);
    ("Er5", CText [1621]);
    ("Fl_space", CText [32]);
    ("Fr_space", CText [32])];
  mkLD [["Fr_altgr"]] [
    ("Bl2", CText [1575; 1621]);
    ("Bl3", CText [10058]);
    ("Bl4", CText [1552]);
    ("Bl5", CText [1553]);
    ("Bl6", CText [1555]);
    ("Bl7", CText [1554]);
    ("Br5", CText [1621]);
    ("Br6", CText [1620]);
    ("Cl1", CText [1751]);
    ("Cl2", CText [1765]);
    ("Cl3", CText [1746]);
    ("Cl4", CText [1688]);
    ("Cl5", CText [1557]);
    ("Cr3", CText [65018]);
    ("Cr5", CText [65164]);
    ("Cr7", CText [1766]);
    ("Dl1", CText [1575; 1621]);
    ("Dl2", CText [1756]);
    ("Dl3", CText [1590]);
    ("Dl4", CText [1700]);
    ("Dl5", CText [1593]);
    ("Dr2", CText [1757]);
    ("Dr3", CText [1566]);
    ("Dr4", CText [1753]);
    ("Dr5", CText [1706]);
    ("Dr6", CText [1754]);
    ("Dr7", CText [64425]);
    ("El1", CText [65019]);
    ("El2", CText [65019]);
    ("El3", CText [1755]);
    ("El4", CText [1750]);
    ("El5", CText [1768]);
    ("El6", CText [1662]);
    ("Er2", CText [171]);
    ("Er3", CText [187]);
    ("Er4", CText [65251]);
    ("Er5", CText [1725])]].

(** ar-qtaish.yaml *)
Definition data_ar_qtaish : generic_data := mkGD "ar-qtaish" [
  mkLD [[]] [
    ("Bl2", CText [1633]);
    ("Bl3", CText [1634]);
    ("Bl4", CText [1635]);
    ("Bl5", CText [1636]);
    ("Bl6", CText [1637]);
    ("Bl7", CText [1638]);
    ("Br6", CText [1639]);
    ("Br5", CText [1640]);
    ("Br4", CText [1641]);
    ("Br3", CText [1632]);
    ("Cl_tab", CText [9]);
    ("Cl1", CText [1602]);
    ("Cl2", CText [1609]);
    ("Cl3", CText [1577]);
    ("Cl4", CText [1583]);
    ("Cl5", CText [1601]);
    ("Cr7", CText [1603]);
    ("Cr6", CText [1589]);
    ("Cr5", CText [1587]);
    ("Cr4", CText [1581]);
    ("Cr3", CText [1584]);
    ("Cr2", CText [1588]);
    ("Cr1", CText [1580]);
    ("CD_ret", CText [10]);
    ("Dl1", CText [1585]);
    ("Dl2", CText [1608]);
    ("Dl3", CText [1606]);
    ("Dl4", CText [1604]);
    ("Dl5", CText [1576]);
    ("Dr7", CText [1578]);
    ("Dr6", CText [1575]);
    ("Dr5", CText [1593]);
    ("Dr4", CText [1610]);
    ("Dr3", CText [1605]);
    ("Dr2", CText [1607]);
    ("El2", CText [1590]);
    ("El3", CText [1582]);
    ("El4", CText [1586]);
    ("El5", CText [1592]);
    ("El6", CText [1594]);
    ("Er5", CText [1575; 1620]);
    ("Er4", CText [1569]);
    ("Er3", CText [1591]);
    ("Er2", CText [1579]);
    ("Er1", CText [1610; 1620]);
    ("Fl_space", CText [32]);
    ("Fr_space", CText [32])];
  mkLD [["El_shift"]; ["Er_shift"]] [
    ("Dl2", CText [1608; 1620]);
    ("Dr6", CText [1575; 1619]);
    ("Er5", CText [1575; 1621])]].

(** null.yaml *)
Definition data_null : generic_data := mkGD "null" [
].

Definition all_layouts : list generic_data := [data_ar_alramly; data_ar_asmo663; data_ar_ergoarabic; data_ar_idlebi; data_ar_khorshid; data_ar_linux; data_ar_lulua; data_ar_malas; data_ar_osman; data_ar_osx; data_ar_phonetic; data_ar_qtaish; data_null].
