(** GENERATED by scripts/gen_data.py from
    auxi/tools/materialphysicalproperties/data/*.json: the coefficients (highest
    power first) and the limits of T of the polynomial models.  Decimal literals
    are kept exactly (the program rounds them to binary64). *)
From Verif Require Import Prelude.
Local Open Scope Q_scope.

Record qpoly := mkqpm { qp_coeffs : list Q; qp_min : Q; qp_max : Q }.
Definition fluid_data : list (string * qpoly) :=
  [
   (** data/air-cp-polynomialmodelt-dataset-air-lienhard2015.json *)
   ("air-cp-polynomialmodelt-dataset-air-lienhard2015"%string, mkqpm [(- 13012109843801189 # 100000000000000000000000000000000000000000000000000); (1357064561574007 # 1000000000000000000000000000000000000000000000); (- 63592590548685695 # 10000000000000000000000000000000000000000000); (17696366708542497 # 1000000000000000000000000000000000000000); (- 32566331611405986 # 1000000000000000000000000000000000000); (4177493628764052 # 100000000000000000000000000000000); (- 38360132071693334 # 1000000000000000000000000000000); (25487223155782104 # 1000000000000000000000000000); (- 1223255814900594 # 100000000000000000000000); (4180380314008743 # 1000000000000000000000); (- 986280210361308 # 1000000000000000000); (15207679644226813 # 100000000000000000); (- 13789942147727643 # 1000000000000000); (15657531289598076 # 10000000000000)] (100 # 1) (1500 # 1));
   (** data/air-cp-polynomialmodelt-dataset-air-lienhard2018.json *)
   ("air-cp-polynomialmodelt-dataset-air-lienhard2018"%string, mkqpm [(- 13012109843801189 # 100000000000000000000000000000000000000000000000000); (1357064561574007 # 1000000000000000000000000000000000000000000000); (- 63592590548685695 # 10000000000000000000000000000000000000000000); (17696366708542497 # 1000000000000000000000000000000000000000); (- 32566331611405986 # 1000000000000000000000000000000000000); (4177493628764052 # 100000000000000000000000000000000); (- 38360132071693334 # 1000000000000000000000000000000); (25487223155782104 # 1000000000000000000000000000); (- 1223255814900594 # 100000000000000000000000); (4180380314008743 # 1000000000000000000000); (- 986280210361308 # 1000000000000000000); (15207679644226813 # 100000000000000000); (- 13789942147727643 # 1000000000000000); (15657531289598076 # 10000000000000)] (100 # 1) (1500 # 1));
   (** data/air-k-polynomialmodelt-dataset-air-lienhard2015.json *)
   ("air-k-polynomialmodelt-dataset-air-lienhard2015"%string, mkqpm [(- 45584407039220744 # 1000000000000000000000000000000000000000000); (3057196941907992 # 10000000000000000000000000000000000000); (- 8551724401167753 # 10000000000000000000000000000000000); (12969089999626462 # 10000000000000000000000000000000); (- 11687496602755807 # 10000000000000000000000000000); (6610324137591409 # 10000000000000000000000000); (- 26027769820048985 # 100000000000000000000000); (1359095744544505 # 10000000000000000000); (- 2152960486212657 # 1000000000000000000)] (100 # 1) (1500 # 1));
   (** data/air-k-polynomialmodelt-dataset-air-lienhard2018.json *)
   ("air-k-polynomialmodelt-dataset-air-lienhard2018"%string, mkqpm [(- 45584407039220744 # 1000000000000000000000000000000000000000000); (3057196941907992 # 10000000000000000000000000000000000000); (- 8551724401167753 # 10000000000000000000000000000000000); (12969089999626462 # 10000000000000000000000000000000); (- 11687496602755807 # 10000000000000000000000000000); (6610324137591409 # 10000000000000000000000000); (- 26027769820048985 # 100000000000000000000000); (1359095744544505 # 10000000000000000000); (- 2152960486212657 # 1000000000000000000)] (100 # 1) (1500 # 1));
   (** data/air-mu-polynomialmodelt-dataset-air-lienhard2015.json *)
   ("air-mu-polynomialmodelt-dataset-air-lienhard2015"%string, mkqpm [(- 17881267631503036 # 1000000000000000000000000000000000000000000000); (1314573390247824 # 10000000000000000000000000000000000000000); (- 4034557380958171 # 10000000000000000000000000000000000000); (6735248667275498 # 10000000000000000000000000000000000); (- 6721931184843412 # 10000000000000000000000000000000); (42427937812433713 # 100000000000000000000000000000); (- 18838849840503455 # 100000000000000000000000000); (9715148223394179 # 100000000000000000000000); (- 1080840489689524 # 1000000000000000000000)] (100 # 1) (1500 # 1));
   (** data/air-mu-polynomialmodelt-dataset-air-lienhard2018.json *)
   ("air-mu-polynomialmodelt-dataset-air-lienhard2018"%string, mkqpm [(- 5080111368156675 # 100000000000000000000000000000000000000000000); (3352618357793687 # 10000000000000000000000000000000000000000); (- 9221667676313281 # 10000000000000000000000000000000000000); (13735217463942501 # 10000000000000000000000000000000000); (- 12111650712956508 # 10000000000000000000000000000000); (6617046847097609 # 10000000000000000000000000000); (- 2452940306436969 # 10000000000000000000000000); (10374738535442204 # 100000000000000000000000); (- 1372444169890097 # 1000000000000000000000)] (100 # 1) (1500 # 1));
   (** data/air-rho-polynomialmodelt-dataset-air-lienhard2015.json *)
   ("air-rho-polynomialmodelt-dataset-air-lienhard2015"%string, mkqpm [(27848317463647863 # 10000000000000000000000000000000000000000000000000000000); (- 3095372015517031 # 100000000000000000000000000000000000000000000000000); (15601159580824342 # 100000000000000000000000000000000000000000000000); (- 4719588575771609 # 10000000000000000000000000000000000000000000); (9560609838452457 # 10000000000000000000000000000000000000000); (- 13700914174259245 # 10000000000000000000000000000000000000); (14306947943211052 # 10000000000000000000000000000000000); (- 11049545315109531 # 10000000000000000000000000000000); (6341001074868738 # 10000000000000000000000000000); (- 26933114640023694 # 100000000000000000000000000); (8361407404938945 # 100000000000000000000000); (- 18539622630399854 # 1000000000000000000000); (28246964674756595 # 10000000000000000000); (- 2768093203135351 # 10000000000000000); (1537384128987613 # 100000000000000)] (100 # 1) (1500 # 1));
   (** data/air-rho-polynomialmodelt-dataset-air-lienhard2018.json *)
   ("air-rho-polynomialmodelt-dataset-air-lienhard2018"%string, mkqpm [(27848317463647863 # 10000000000000000000000000000000000000000000000000000000); (- 3095372015517031 # 100000000000000000000000000000000000000000000000000); (15601159580824342 # 100000000000000000000000000000000000000000000000); (- 4719588575771609 # 10000000000000000000000000000000000000000000); (9560609838452457 # 10000000000000000000000000000000000000000); (- 13700914174259245 # 10000000000000000000000000000000000000); (14306947943211052 # 10000000000000000000000000000000000); (- 11049545315109531 # 10000000000000000000000000000000); (6341001074868738 # 10000000000000000000000000000); (- 26933114640023694 # 100000000000000000000000000); (8361407404938945 # 100000000000000000000000); (- 18539622630399854 # 1000000000000000000000); (28246964674756595 # 10000000000000000000); (- 2768093203135351 # 10000000000000000); (1537384128987613 # 100000000000000)] (100 # 1) (1500 # 1));
   (** data/ammonia-cp-polynomialmodelt-dataset-ammonia-lienhard2018.json *)
   ("ammonia-cp-polynomialmodelt-dataset-ammonia-lienhard2018"%string, mkqpm [(- 3004333164430792 # 1000000000000000000000000); (5769748018328997 # 1000000000000000000000); (- 4427677857117183 # 1000000000000000000); (1702021433946068 # 1000000000000000); (- 3270506852193552 # 10000000000000); (2720954690475778 # 100000000000)] (240 # 1) (473 # 1));
   (** data/ammonia-k-polynomialmodelt-dataset-ammonia-lienhard2018.json *)
   ("ammonia-k-polynomialmodelt-dataset-ammonia-lienhard2018"%string, mkqpm [(- 524174753839026 # 1000000000000000000000000); (8234498891085012 # 10000000000000000000000); (- 2612454336815151 # 10000000000000000000); (43516068396778934 # 1000000000000000000)] (240 # 1) (473 # 1));
   (** data/ammonia-mu-polynomialmodelt-dataset-ammonia-lienhard2018.json *)
   ("ammonia-mu-polynomialmodelt-dataset-ammonia-lienhard2018"%string, mkqpm [(11479645595593926 # 1000000000000000000000000000); (2956949551936585 # 100000000000000000000000); (2820391908653236 # 10000000000000000000000)] (240 # 1) (473 # 1));
   (** data/ammonia-rho-polynomialmodelt-dataset-ammonia-lienhard2018.json *)
   ("ammonia-rho-polynomialmodelt-dataset-ammonia-lienhard2018"%string, mkqpm [(- 5879297995312473 # 10000000000000000000000000000000); (8983369034585009 # 10000000000000000000000000000); (- 39507792627120233 # 100000000000000000000000000); (- 5915904487827819 # 100000000000000000000000); (10472435337926225 # 100000000000000000000); (- 3442709169576243 # 100000000000000000); (4644810865013409 # 1000000000000000)] (240 # 1) (473 # 1));
   (** data/argon-cp-polynomialmodelt-dataset-argon-lienhard2018.json *)
   ("argon-cp-polynomialmodelt-dataset-argon-lienhard2018"%string, mkqpm [(- 14270971546994227 # 1000000000000000000000000000000000); (4981997477493724 # 100000000000000000000000000000); (- 7320399036976879 # 100000000000000000000000000); (58710583649755094 # 1000000000000000000000000); (- 2780615397886484 # 100000000000000000000); (7812073005282607 # 1000000000000000000); (- 12181527412655828 # 10000000000000000); (6037890442894786 # 10000000000000)] (150 # 1) (700 # 1));
   (** data/argon-k-polynomialmodelt-dataset-argon-lienhard2018.json *)
   ("argon-k-polynomialmodelt-dataset-argon-lienhard2018"%string, mkqpm [(27485107485107786 # 1000000000000000000000000000); (- 6004950604950647 # 100000000000000000000000); (7903599363599382 # 100000000000000000000); (- 11879631479631584 # 10000000000000000000)] (150 # 1) (700 # 1));
   (** data/argon-mu-polynomialmodelt-dataset-argon-lienhard2018.json *)
   ("argon-mu-polynomialmodelt-dataset-argon-lienhard2018"%string, mkqpm [(3356643356643368 # 100000000000000000000000000000); (- 74865134865135 # 1000000000000000000000000); (10037662337662345 # 100000000000000000000000); (- 1458941058941051 # 1000000000000000000000)] (150 # 1) (700 # 1));
   (** data/argon-rho-polynomialmodelt-dataset-argon-lienhard2018.json *)
   ("argon-rho-polynomialmodelt-dataset-argon-lienhard2018"%string, mkqpm [(5663180827872477 # 10000000000000000000000000000000); (- 1657169934637087 # 1000000000000000000000000000); (20024787162695287 # 10000000000000000000000000); (- 1289773079778083 # 1000000000000000000000); (4759372567278739 # 10000000000000000000); (- 1000745316667265 # 10000000000000000); (11029543764566004 # 1000000000000000)] (150 # 1) (700 # 1));
   (** data/carbon-dioxide-cp-polynomialmodelt-dataset-carbon-dioxide-lienhard2018.json *)
   ("carbon-dioxide-cp-polynomialmodelt-dataset-carbon-dioxide-lienhard2018"%string, mkqpm [(- 1077502700937804 # 10000000000000000000000000); (23344754228448212 # 100000000000000000000000); (- 19747355056051052 # 100000000000000000000); (8066971049815058 # 100000000000000000); (- 14938655491431351 # 1000000000000000); (17762443266880036 # 10000000000000)] (220 # 1) (600 # 1));
   (** data/carbon-dioxide-k-polynomialmodelt-dataset-carbon-dioxide-lienhard2018.json *)
   ("carbon-dioxide-k-polynomialmodelt-dataset-carbon-dioxide-lienhard2018"%string, mkqpm [(- 11781632473119422 # 100000000000000000000000000); (15196640596783172 # 100000000000000000000000); (19856843019308228 # 1000000000000000000000); (3784715661992478 # 10000000000000000000)] (220 # 1) (600 # 1));
   (** data/carbon-dioxide-mu-polynomialmodelt-dataset-carbon-dioxide-lienhard2018.json *)
   ("carbon-dioxide-mu-polynomialmodelt-dataset-carbon-dioxide-lienhard2018"%string, mkqpm [(- 16809032710186434 # 1000000000000000000000000000); (5837612541969651 # 100000000000000000000000); (- 972668459482145 # 1000000000000000000000)] (220 # 1) (600 # 1));
   (** data/carbon-dioxide-rho-polynomialmodelt-dataset-carbon-dioxide-lienhard2018.json *)
   ("carbon-dioxide-rho-polynomialmodelt-dataset-carbon-dioxide-lienhard2018"%string, mkqpm [(9541036190716245 # 10000000000000000000000000000000); (- 25357162408457956 # 10000000000000000000000000000); (2816083120095255 # 1000000000000000000000000); (- 16900864031409751 # 10000000000000000000000); (5900166958030721 # 10000000000000000000); (- 11913048819670768 # 100000000000000000); (12723006295112055 # 1000000000000000)] (220 # 1) (600 # 1));
   (** data/carbon-monoxide-cp-polynomialmodelt-dataset-carbon-monoxide-lienhard2018.json *)
   ("carbon-monoxide-cp-polynomialmodelt-dataset-carbon-monoxide-lienhard2018"%string, mkqpm [(- 2885400944710198 # 10000000000000000000000000000); (932178001912388 # 1000000000000000000000000); (- 1202354235124177 # 1000000000000000000000); (8086130470318576 # 10000000000000000000); (- 2729646730157886 # 10000000000000000); (10750548175394686 # 10000000000000)] (250 # 1) (1000 # 1));
   (** data/carbon-monoxide-k-polynomialmodelt-dataset-carbon-monoxide-lienhard2018.json *)
   ("carbon-monoxide-k-polynomialmodelt-dataset-carbon-monoxide-lienhard2018"%string, mkqpm [(19986169576063027 # 1000000000000000000000000000); (- 54930372295844675 # 1000000000000000000000000); (9384383472756335 # 100000000000000000000); (2781658988850359 # 1000000000000000000)] (250 # 1) (1000 # 1));
   (** data/carbon-monoxide-mu-polynomialmodelt-dataset-carbon-monoxide-lienhard2018.json *)
   ("carbon-monoxide-mu-polynomialmodelt-dataset-carbon-monoxide-lienhard2018"%string, mkqpm [(1421010272169202 # 100000000000000000000000000000); (- 3937137966456053 # 100000000000000000000000000); (6388404467229647 # 100000000000000000000000); (17007742468307098 # 10000000000000000000000)] (250 # 1) (1000 # 1));
   (** data/carbon-monoxide-rho-polynomialmodelt-dataset-carbon-monoxide-lienhard2018.json *)
   ("carbon-monoxide-rho-polynomialmodelt-dataset-carbon-monoxide-lienhard2018"%string, mkqpm [(24531830870014076 # 1000000000000000000000000000000000); (- 10408881519703569 # 100000000000000000000000000000); (1832956312893193 # 10000000000000000000000000); (- 1731853900450903 # 10000000000000000000000); (9455881591997106 # 100000000000000000000); (- 29751091038317468 # 1000000000000000000); (4980260887200401 # 1000000000000000)] (250 # 1) (1000 # 1));
   (** data/nitrogen-cp-polynomialmodelt-dataset-nitrogen-lienhard2018.json *)
   ("nitrogen-cp-polynomialmodelt-dataset-nitrogen-lienhard2018"%string, mkqpm [(- 32943493366811207 # 1000000000000000000000000000000); (30904068342385863 # 100000000000000000000000000); (- 9912120817900236 # 10000000000000000000000); (1346797498157785 # 1000000000000000000); (- 5840779878861221 # 10000000000000000); (1116816136431907 # 1000000000000)] (100 # 1) (1600 # 1));
   (** data/nitrogen-k-polynomialmodelt-dataset-nitrogen-lienhard2018.json *)
   ("nitrogen-k-polynomialmodelt-dataset-nitrogen-lienhard2018"%string, mkqpm [(- 10707775331933262 # 1000000000000000000000000000000); (406935917420294 # 10000000000000000000000000); (- 6064690644916883 # 100000000000000000000000); (9754528040011342 # 100000000000000000000); (9651622318077325 # 10000000000000000000)] (100 # 1) (1600 # 1));
   (** data/nitrogen-mu-polynomialmodelt-dataset-nitrogen-lienhard2018.json *)
   ("nitrogen-mu-polynomialmodelt-dataset-nitrogen-lienhard2018"%string, mkqpm [(- 8018356419123275 # 1000000000000000000000000000000000); (35127152559981704 # 1000000000000000000000000000000); (- 6037963401565775 # 100000000000000000000000000); (7468361657655015 # 100000000000000000000000); (3503472083710238 # 1000000000000000000000000)] (100 # 1) (1600 # 1));
   (** data/nitrogen-rho-polynomialmodelt-dataset-nitrogen-lienhard2018.json *)
   ("nitrogen-rho-polynomialmodelt-dataset-nitrogen-lienhard2018"%string, mkqpm [(4889879735874857 # 100000000000000000000000000000000000000); (- 34701415794315684 # 100000000000000000000000000000000000); (10384650485388174 # 10000000000000000000000000000000); (- 17075765552842106 # 10000000000000000000000000000); (16850290874119502 # 10000000000000000000000000); (- 1023211933731267 # 1000000000000000000000); (376880343019116 # 1000000000000000000); (- 7968477299204915 # 100000000000000000); (8553314639281158 # 1000000000000000)] (100 # 1) (1600 # 1));
   (** data/oxygen-cp-polynomialmodelt-dataset-oxygen-lienhard2018.json *)
   ("oxygen-cp-polynomialmodelt-dataset-oxygen-lienhard2018"%string, mkqpm [(2277644164610979 # 100000000000000000000000000000); (8532593250795851 # 10000000000000000000000000); (- 2650825580136536 # 1000000000000000000000); (27237799297315404 # 10000000000000000000); (- 8562216226272364 # 10000000000000000); (996287575475637 # 1000000000000)] (100 # 1) (1000 # 1));
   (** data/oxygen-k-polynomialmodelt-dataset-oxygen-lienhard2018.json *)
   ("oxygen-k-polynomialmodelt-dataset-oxygen-lienhard2018"%string, mkqpm [(- 4352166757263019 # 100000000000000000000000000000); (10833562067509625 # 100000000000000000000000000); (- 10804746711727473 # 100000000000000000000000); (11469322583283072 # 100000000000000000000); (- 10649834600722204 # 10000000000000000000)] (100 # 1) (1000 # 1));
   (** data/oxygen-mu-polynomialmodelt-dataset-oxygen-lienhard2018.json *)
   ("oxygen-mu-polynomialmodelt-dataset-oxygen-lienhard2018"%string, mkqpm [(- 25597834961741544 # 1000000000000000000000000000000000); (7929306772401208 # 100000000000000000000000000000); (- 10084077928733898 # 100000000000000000000000000); (9760639665005734 # 100000000000000000000000); (- 13929116094348378 # 10000000000000000000000)] (100 # 1) (1000 # 1));
   (** data/oxygen-rho-polynomialmodelt-dataset-oxygen-lienhard2018.json *)
   ("oxygen-rho-polynomialmodelt-dataset-oxygen-lienhard2018"%string, mkqpm [(1473326150296643 # 1000000000000000000000000000000000000); (- 68790290982008566 # 10000000000000000000000000000000000); (13628913304982637 # 1000000000000000000000000000000); (- 149510882734876 # 10000000000000000000000000); (9940438364651832 # 1000000000000000000000000); (- 4120916088737345 # 1000000000000000000000); (10552158055491191 # 10000000000000000000); (- 1590833092446286 # 10000000000000000); (12613157736797113 # 1000000000000000)] (100 # 1) (1000 # 1));
   (** data/water-beta.json *)
   ("water-beta"%string, mkqpm [(1587800908402146 # 1000000000000000000000000000000000000000000); (- 7462956853528314 # 1000000000000000000000000000000000000000); (15842202051322773 # 1000000000000000000000000000000000000); (- 20046098863032268 # 1000000000000000000000000000000000); (16798357641438072 # 1000000000000000000000000000000); (- 9787709215243496 # 1000000000000000000000000000); (4045969977419189 # 1000000000000000000000000); (- 11865329795540545 # 10000000000000000000000); (24192488756867358 # 100000000000000000000); (- 32662822453926536 # 1000000000000000000); (26283348596121425 # 10000000000000000); (- 9551108084082152 # 100000000000000)] (27316 # 100) (620 # 1));
   (** data/water-cp.json *)
   ("water-cp"%string, mkqpm [(16247993986877288 # 100000000000000000000000000000000000); (- 6949469897200736 # 10000000000000000000000000000000); (13281626298100944 # 10000000000000000000000000000); (- 1493367230148498 # 1000000000000000000000000); (10938270577183833 # 10000000000000000000000); (- 54528364467918 # 100000000000000000); (18734739472695122 # 100000000000000000); (- 4380361670340635 # 100000000000000); (6670084090414945 # 1000000000000); (- 5973258161267168 # 10000000000); (23895321144308947 # 1000000000)] (27316 # 100) (620 # 1));
   (** data/water-k.json *)
   ("water-k"%string, mkqpm [(4014203387792431 # 100000000000000000000000000000000000); (- 14725504184644487 # 100000000000000000000000000000000); (2354004072747528 # 10000000000000000000000000000); (- 21391433541830797 # 100000000000000000000000000); (12064709128396774 # 100000000000000000000000); (- 43148928997117895 # 1000000000000000000000); (9526236891261555 # 1000000000000000000); (- 1181149910785125 # 1000000000000000); (63149462236055705 # 1000000000000000)] (27316 # 100) (620 # 1));
   (** data/water-mu.json *)
   ("water-mu"%string, mkqpm [(- 39576855369151983 # 100000000000000000000000000000000000000000000); (19927922071799127 # 10000000000000000000000000000000000000000); (- 453489957755581 # 100000000000000000000000000000000000); (6156138091490682 # 1000000000000000000000000000000000); (- 5538938148158184 # 1000000000000000000000000000000); (346822638782876 # 100000000000000000000000000); (- 15421790954399852 # 10000000000000000000000000); (4870077015784609 # 10000000000000000000000); (- 10704987432006421 # 100000000000000000000); (15601837795515728 # 1000000000000000000); (- 13572740897938709 # 10000000000000000); (5341590211114753 # 100000000000000)] (27316 # 100) (620 # 1));
   (** data/water-nu.json *)
   ("water-nu"%string, mkqpm [(- 3276269721374497 # 10000000000000000000000000000000000000000000000); (16560465948984408 # 10000000000000000000000000000000000000000000); (- 37835940848643 # 10000000000000000000000000000000000000); (5157389921212368 # 1000000000000000000000000000000000000); (- 4660109801914304 # 1000000000000000000000000000000000); (2930851771749725 # 1000000000000000000000000000000); (- 13092210770255314 # 10000000000000000000000000000); (4154203772561557 # 10000000000000000000000000); (- 9177027189394479 # 100000000000000000000000); (13444821051657595 # 1000000000000000000000); (- 11760374896457638 # 10000000000000000000); (46550504728984254 # 1000000000000000000)] (27316 # 100) (620 # 1));
   (** data/water-rho.json *)
   ("water-rho"%string, mkqpm [(- 2489949217401472 # 1000000000000000000000000000000); (68457785202978654 # 10000000000000000000000000000); (- 7910174083201054 # 1000000000000000000000000); (4941601559444423 # 1000000000000000000000); (- 17826134754078127 # 10000000000000000000); (3622930530620232 # 10000000000000000); (- 36772566820772624 # 1000000000000000); (23011927270572223 # 10000000000000)] (27316 # 100) (620 # 1));
   (** data/water-vapour-cp-polynomialmodelt-dataset-water-vapour-lienhard2018.json *)
   ("water-vapour-cp-polynomialmodelt-dataset-water-vapour-lienhard2018"%string, mkqpm [(21851575081576384 # 10000000000000000000000000000000000); (- 12649095926564125 # 1000000000000000000000000000000); (3163902697541588 # 100000000000000000000000000); (- 4466768172804574 # 100000000000000000000000); (3894002043074775 # 100000000000000000000); (- 2147525017638811 # 100000000000000000); (73227598394290645 # 10000000000000000); (- 14127797059872105 # 10000000000000); (12012803865512747 # 100000000000)] (37315 # 100) (107315 # 100));
   (** data/water-vapour-k-polynomialmodelt-dataset-water-vapour-lienhard2018.json *)
   ("water-vapour-k-polynomialmodelt-dataset-water-vapour-lienhard2018"%string, mkqpm [(6185503840098742 # 100000000000000000000000000000); (- 2208869661104065 # 10000000000000000000000000); (3213558051792605 # 10000000000000000000000); (- 8911856227802432 # 100000000000000000000); (23819663309908673 # 1000000000000000000)] (37315 # 100) (107315 # 100));
   (** data/water-vapour-mu-polynomialmodelt-dataset-water-vapour-lienhard2018.json *)
   ("water-vapour-mu-polynomialmodelt-dataset-water-vapour-lienhard2018"%string, mkqpm [(1521013277645147 # 100000000000000000000000000000000); (- 53606600503434437 # 1000000000000000000000000000000); (6514614437131062 # 100000000000000000000000000); (8194280198117093 # 1000000000000000000000000); (26407099651034833 # 10000000000000000000000)] (37315 # 100) (107315 # 100));
   (** data/water-vapour-rho-polynomialmodelt-dataset-water-vapour-lienhard2018.json *)
   ("water-vapour-rho-polynomialmodelt-dataset-water-vapour-lienhard2018"%string, mkqpm [(5234242198496876 # 100000000000000000000000000000000000000); (- 31020423285799643 # 100000000000000000000000000000000000); (7980459799574202 # 10000000000000000000000000000000); (- 11661994584481084 # 10000000000000000000000000000); (10621588688394845 # 10000000000000000000000000); (- 6210861963475192 # 10000000000000000000000); (2305100298558002 # 10000000000000000000); (- 51210954920464104 # 1000000000000000000); (5863045171803242 # 1000000000000000)] (37315 # 100) (107315 # 100))
  ].
