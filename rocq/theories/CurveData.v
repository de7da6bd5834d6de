(** Certificates of the group orders of the named curves (input of the checker of CurveCert.v). *)
From Coq Require Import List ZArith Uint63.
From Verif Require Import CurveCert.
Import ListNotations.
Open Scope Z_scope.

Definition cert_brainpoolP256r1 : cert := mkcert 10 251496889%uint63 [0; 1; 0; 1; 0; 1; 0; 0; 0; 0; 0; 0; (-1); 0; 0; (-1); 0; (-1); 0; (-1); 0; 0; 0; 0; 0; (-1); 0; 0; (-1); 0; 0; (-1); 0; 1; 0; 0; 0; 1; 0; 0; 0; 0; (-1); 0; 0; (-1); 0; 1; 0; 1; 0; 1; 0; 1; 0; 0; (-1); 0; 0; 0; (-1); 0; 0; 0; 1; 0; 0; 0; 0; (-1); 0; 1; 0; (-1); 0; 1; 0; (-1); 0; 0; 0; 0; 0; 1; 0; 1; 0; 1; 0; 0; 1; 0; 0; 0; 0; 1; 0; 1; 0; 0; 0; (-1); 0; (-1); 0; 0; 0; 0; 1; 0; 0; (-1); 0; 0; 1; 0; 0; (-1); 0; (-1); 0; 0; (-1); 0; 0; 1; 0; (-1); 0; 0; 1; 0; (-1); 0; 0; 0; 1; 0; 0; (-1); 0; 1; 0; (-1); 0; 0; 0; (-1); 0; 1; 0; 1; 0; 1; 0; 0; 1; 0; 0; 0; (-1); 0; 0; (-1); 0; (-1); 0; (-1); 0; (-1); 0; 0; 0; 1; 0; (-1); 0; 1; 0; 1; 0; 0; (-1); 0; 0; 0; 0; (-1); 0; 0; 0; (-1); 0; 0; 1; 0; 0; 0; 0; 0; 0; 1; 0; 0; 0; (-1); 0; 0; 0; 0; 1; 0; 0; (-1); 0; 1; 0; 0; 0; 0; 0; 1; 0; 1; 0; 1; 0; (-1); 0; 0; (-1); 0; 1; 0; 0; 1; 0; 0; 0; 1; 0; (-1); 0; (-1); 0; (-1); 0; 1; 0; 1; 0; 1; 0; (-1); 0] 1113555354529730085267879101495854376332085318573145440897024532629455650727 18690505336949817952412523897850476982608054269965571793098154617337958726131.
Definition roots_brainpoolP256r1 : list Z := [15703783180368308537975985717198247323704037194674223095603190637516181026386; 9448338584781788375876985746308700731606388869709063592619278433205641489863; 57624635137232112928479409544686669529058298794467772625628446346768471895818; 17135250330838727405476050406250773671606539009558802614080344868787255125930; 42256434209088141857364620122051303630041114377783623125818357690176877493381].

Definition cert_brainpoolP320r1 : cert := mkcert 12 176856681%uint63 [0; (-1); 0; 1; 0; 1; 0; 0; (-1); 0; (-1); 0; 0; 0; (-1); 0; 0; 1; 0; 0; 1; 0; 0; (-1); 0; 0; 1; 0; 0; 0; 0; 0; 0; 1; 0; 0; (-1); 0; 0; (-1); 0; (-1); 0; 0; 0; (-1); 0; 0; 0; 1; 0; 1; 0; 0; 0; 0; 0; (-1); 0; 0; (-1); 0; 0; 0; 0; 0; (-1); 0; 0; 0; 0; 1; 0; 1; 0; 0; 0; (-1); 0; 0; 1; 0; 0; 0; (-1); 0; 0; 0; 1; 0; (-1); 0; 0; 0; 0; (-1); 0; (-1); 0; 1; 0; 0; 1; 0; 0; 0; 0; 0; 0; 0; 1; 0; 0; 0; (-1); 0; 0; 0; 0; 0; 1; 0; (-1); 0; 1; 0; (-1); 0; 0; 0; 0; 0; (-1); 0; 1; 0; (-1); 0; 0; 1; 0; 0; 0; 0; 0; (-1); 0; 1; 0; 0; 0; 0; (-1); 0; 1; 0; 1; 0; (-1); 0; 0; (-1); 0; 0; (-1); 0; (-1); 0; 1; 0; 0; 1; 0; 0; 0; (-1); 0; 0; 0; 1; 0; 0; 1; 0; 1; 0; 1; 0; 0; 1; 0; (-1); 0; 1; 0; (-1); 0; (-1); 0; 1; 0; 1; 0; 0; 1; 0; 0; 0; 0; 1; 0; (-1); 0; 0; 0; (-1); 0; (-1); 0; 0; 1; 0; 0; 0; 0; 0; 0; (-1); 0; 0; (-1); 0; 1; 0; 0; 0; 1; 0; (-1); 0; 1; 0; (-1); 0; (-1); 0; 0; 1; 0; 0; (-1); 0; 1; 0; 1; 0; (-1); 0; 0; 0; 1; 0; (-1); 0; 1; 0; 0; 1; 0; 0; 1; 0; (-1); 0; (-1); 0; (-1); 0; (-1); 0; (-1); 0; (-1); 0; 0; (-1); 0; (-1); 0; 1; 0; 0; 0; 1; 0; 1; 0; (-1); 0; 0; 1; 0; (-1); 0; (-1); 0; 0; 1; 0; 1; 0; (-1); 0; 0; 0; 1; 0; 0; 0; 0] 1620530384513166874902880788019827996421201397968303914314151034029879709351763593038235312047388 743402981805742593912506760358061242421145943049698766061597223508452058045593721502683203872586.
Definition roots_brainpoolP320r1 : list Z := [196026254947060358789285389538082721021048997493276752901204816605610696693550901389722166928251; 866187118049685388308094007686572380412892361126359595489719844179449517534372638139925904008243; 383354096033546507463593674563063029018726742530156426944854665635254351519696261074702612537226; 620491043578531650449318068921901310201686753525625742360973835296684417129257796917271961173323; 969713658024355300809431359936557793822630458502379594243335018182562449123698691284361019257818].

Definition cert_brainpoolP384r1 : cert := mkcert 14 178178085%uint63 [0; 0; 1; 0; (-1); 0; 1; 0; (-1); 0; 0; (-1); 0; 0; 1; 0; 0; 1; 0; 0; 0; (-1); 0; 1; 0; 0; 0; 0; 0; 1; 0; 1; 0; 1; 0; 0; 1; 0; (-1); 0; 1; 0; 0; (-1); 0; 0; 0; 1; 0; 0; (-1); 0; (-1); 0; 1; 0; 0; 1; 0; 1; 0; 0; 0; 0; 0; 0; 1; 0; 0; 0; 0; (-1); 0; (-1); 0; 0; 0; (-1); 0; (-1); 0; 0; (-1); 0; 0; 0; 0; (-1); 0; 0; 0; 0; 0; (-1); 0; 0; 1; 0; 1; 0; 0; 0; 1; 0; 0; (-1); 0; 1; 0; (-1); 0; 0; 1; 0; 0; 0; 0; 1; 0; 0; 0; (-1); 0; 0; 0; 0; (-1); 0; 0; 0; 1; 0; 1; 0; 1; 0; 1; 0; (-1); 0; 0; 0; 0; (-1); 0; 0; (-1); 0; 0; 0; 1; 0; 0; 0; 0; 1; 0; 1; 0; 0; 0; 0; (-1); 0; (-1); 0; 1; 0; 1; 0; 1; 0; 1; 0; 0; 1; 0; (-1); 0; (-1); 0; 0; (-1); 0; (-1); 0; (-1); 0; 1; 0; (-1); 0; 0; 1; 0; 0; 0; 0; (-1); 0; 0; 1; 0; (-1); 0; (-1); 0; 1; 0; 0; (-1); 0; 0; (-1); 0; 1; 0; 0; (-1); 0; (-1); 0; 1; 0; (-1); 0; (-1); 0; (-1); 0; 0; 0; 0; 0; 0; 0; 1; 0; 0; 0; 0; 1; 0; 1; 0; (-1); 0; (-1); 0; 1; 0; 1; 0; 0; 0; 0; (-1); 0; 1; 0; 0; 0; (-1); 0; 1; 0; 0; 0; (-1); 0; (-1); 0; (-1); 0; 0; (-1); 0; 0; (-1); 0; (-1); 0; (-1); 0; 0; 0; 0; (-1); 0; 0; (-1); 0; (-1); 0; 0; (-1); 0; 0; 0; 0; 0; 0; 0; 0; (-1); 0; 0; 0; 1; 0; (-1); 0; 0; 0; 1; 0; 0; 0; 0; 0; 1; 0; 0; 0; (-1); 0; 0; (-1); 0; 0; 0; 1; 0; 0; 0; 0; 1; 0; (-1); 0; 0; 1; 0; 0; 0; 0; 0; 0; 1; 0; (-1); 0; 0; (-1); 0; 1; 0; 0; 1; 0; 0; 0; 0; 0; 1; 0; 0; 1; 0; (-1); 0; 1; 0; (-1); 0; (-1); 0; (-1); 0; 0; 1; 0; 0] 4015192612691628237482823625368101800824499114693482848568977483252006794499006321242532232043203672052361584001032 15135026255818329658905292603664847625339781044254403147536308828561789869570593116010371780325354778674641254594944.
Definition roots_brainpoolP384r1 : list Z := [12623783259615307904033670097774652986787435928285497553759915336237893168910245956449587301696650432817128911952824; 14767482604972673656641002243446048762066941856135672831952676681162373587549385657238309134115150227870837816615159; 9159067921132221943490161600137430386647060327573367470602853253709882768611852384319005799907766256715467492118142; 14146853689649906591242416866920264375744337843689250279977514733138216601171532953616341805315603905364639807813338; 1773464241990174759291567390767999678883578421241920214348255027408253104388387204880033423123645832332584234861677].

Definition cert_brainpoolP512r1 : cert := mkcert 19 227143621%uint63 [0; (-1); 0; (-1); 0; (-1); 0; (-1); 0; 0; (-1); 0; 0; 0; (-1); 0; (-1); 0; 1; 0; 0; 0; (-1); 0; 0; (-1); 0; 0; (-1); 0; 0; 1; 0; 0; (-1); 0; 0; (-1); 0; 0; 0; 0; (-1); 0; 1; 0; 1; 0; 0; (-1); 0; 0; 0; 1; 0; 0; 1; 0; 0; 1; 0; (-1); 0; (-1); 0; 1; 0; 0; 0; 0; 0; 0; 0; (-1); 0; 1; 0; 1; 0; 1; 0; 0; (-1); 0; 1; 0; 0; (-1); 0; (-1); 0; (-1); 0; 0; (-1); 0; 0; 1; 0; (-1); 0; 1; 0; 0; 0; (-1); 0; 0; 1; 0; 1; 0; 0; 0; 0; 0; 0; (-1); 0; 0; 0; 0; 0; 0; 1; 0; 0; 0; 0; (-1); 0; 1; 0; (-1); 0; (-1); 0; 1; 0; (-1); 0; 0; 0; 0; 1; 0; 0; 1; 0; 0; (-1); 0; 0; (-1); 0; (-1); 0; 1; 0; 0; 0; (-1); 0; (-1); 0; 1; 0; 0; 0; (-1); 0; 0; 1; 0; 1; 0; 0; (-1); 0; 1; 0; 0; 1; 0; 0; 0; 0; 1; 0; 0; 0; (-1); 0; 0; (-1); 0; (-1); 0; (-1); 0; 1; 0; (-1); 0; 0; 1; 0; 0; (-1); 0; 1; 0; 0; (-1); 0; 1; 0; (-1); 0; 0; 1; 0; 1; 0; 1; 0; 0; (-1); 0; 0; 0; 0; 0; 1; 0; (-1); 0; 1; 0; (-1); 0; 0; 0; 0; 1; 0; 0; 0; 1; 0; 0; (-1); 0; 0; 0; 0; 0; 1; 0; 1; 0; 1; 0; 1; 0; 1; 0; 0; 0; 0; (-1); 0; 1; 0; (-1); 0; 0; (-1); 0; 0; 0; 1; 0; 0; 0; 0; 0; 1; 0; 1; 0; 1; 0; (-1); 0; 0; 1; 0; 1; 0; 1; 0; 0; 1; 0; 0; 1; 0; 1; 0; (-1); 0; 0; 0; 1; 0; (-1); 0; 0; 1; 0; 1; 0; 0; 0; 0; 1; 0; (-1); 0; 0; 0; 1; 0; (-1); 0; 1; 0; (-1); 0; 0; 0; 0; 1; 0; 0; 1; 0; (-1); 0; 1; 0; (-1); 0; 0; 0; 0; 0; 0; 0; 0; (-1); 0; (-1); 0; (-1); 0; 0; 0; 0; 0; 1; 0; 0; 0; 0; 0; 1; 0; 0; 1; 0; 0; (-1); 0; 0; 1; 0; 0; 0; (-1); 0; 0; (-1); 0; (-1); 0; 0; 1; 0; 0; (-1); 0; 1; 0; 1; 0; 0; (-1); 0; 0; 0; 0; 0; 0; 1; 0; 0; 0; 0; 1; 0; 0; 0; 1; 0; (-1); 0; 0; 0; (-1); 0; 0; 0; (-1); 0; 0; (-1); 0; (-1); 0; 0; (-1); 0; 0; 0; (-1); 0; 0; (-1); 0; 0; (-1); 0; (-1); 0; (-1); 0; 0; 0; 1; 0; 0; 0; (-1); 0; 1; 0; (-1); 0; (-1); 0; 1; 0; 0; 0; 0; 0; 1; 0; 1; 0; 1; 0; 0; (-1); 0; 0; 1; 0; 1; 0; 1; 0; 0; 1; 0; 0; 0; 0; 0; 0; 0; 0; 1; 0; (-1); 0; 1; 0; 0; 0] 1278209001033943806769752698056787548673310941169158832239245300237185937970699317040507270565042925146936873624739950785471948650950632962931487010521183 5866297773453594445682418288939733433262776379320519915813050801125815369600714709076401041471440662149669492098109223412064522330271226818197121930797032.
Definition roots_brainpoolP512r1 : list Z := [962174989956811689240153034332121671651104944342546256932835822837399961456294457448738018407572973079628943829797819160710688113112907931929971089696369; 4159384125860882173059093993021643527753677817177929389964211253083628997975498221787951840332113534950048312350643948019764915593752203926359503966656607; 8274431406932427032119818911998926336679513154900770999866413850692913538301230114153206514894777442639506494288482248430829477963528762213856887862737910; 4815989372655146103302034974045161204247747950400424529305279473317783566506845753336813095670465511287423806350817464629255274550430024344954955033329360; 3054992835400136253949940509310341494865762282519771423874842632697212962334774164906830881097051916803413943069884707759451765340664216827495450071188256].

Definition cert_secp256k1 : cert := mkcert 10 35992881%uint63 [0; 0; 0; 0; 0; 0; 0; 0; 0; 0; 0; 0; 0; 0; 0; 0; 0; 0; 0; 0; 0; 0; 0; 0; 0; 0; 0; 0; 0; 0; 0; 0; 0; 0; 0; 0; 0; 0; 0; 0; 0; 0; 0; 0; 0; 0; 0; 0; 0; 0; 0; 0; 0; 0; 0; 0; 0; 0; 0; 0; 0; 0; 0; 0; 0; 0; 0; 0; 0; 0; 0; 0; 0; 0; 0; 0; 0; 0; 0; 0; 0; 0; 0; 0; 0; 0; 0; 0; 0; 0; 0; 0; 0; 0; 0; 0; 0; 0; 0; 0; 0; 0; 0; 0; 0; 0; 0; 0; 0; 0; 0; 0; 0; 0; 0; 0; 0; 0; 0; 0; 0; 0; 0; 0; 0; 0; 0; (-1); 0; (-1); 0; 0; 0; (-1); 0; (-1); 0; (-1); 0; (-1); 0; 0; 0; (-1); 0; 0; (-1); 0; 0; (-1); 0; 1; 0; 0; (-1); 0; 1; 0; 0; (-1); 0; (-1); 0; (-1); 0; 0; 0; (-1); 0; 1; 0; 0; 1; 0; 0; 0; 1; 0; 1; 0; 0; 0; 0; 0; 0; 1; 0; 0; 0; (-1); 0; 0; 0; (-1); 0; 0; 0; 0; 0; 0; 0; (-1); 0; 1; 0; 0; 1; 0; 1; 0; (-1); 0; 0; 0; (-1); 0; 1; 0; 0; 1; 0; (-1); 0; 1; 0; (-1); 0; 1; 0; 0; 0; 0; 0; 1; 0; 0; (-1); 0; (-1); 0; 0; 1; 0; 0; 0; 0; 0; 1; 0; 1; 0; 0; 0; 0; 0; 0] 51552623279603331795275857043932576712450286864339038292277896890560683020964 113866597201623862619853251319956892000834656122447750427312408763635218373268.
Definition roots_secp256k1 : list Z := [99250362203413881791632272864589635302802843999120483462392225157866205328278; 0; 0; 0; 31333159112772122773853619483734641829048101191123799020751934842036457873469].

Definition cert_secp256r1 : cert := mkcert 10 1%uint63 [0; 0; 0; 0; 0; 0; 0; 0; 0; 0; 0; 0; 0; 0; 0; 0; 0; 0; 0; 0; 0; 0; 0; 0; 0; 0; 0; 0; 0; 0; 0; (-1); 0; 0; 0; 0; 0; 0; 0; 0; 0; 0; 0; 0; 0; 0; 0; 0; 0; 0; 0; 0; 0; 0; 0; 0; 0; 0; 0; 0; 0; 0; 0; 1; 0; 0; 0; 0; 0; 0; 0; 0; 0; 0; 0; 0; 0; 0; 0; 0; 0; 0; 0; 0; 0; 0; 0; 0; 0; 0; 0; 0; 0; 0; 0; 0; 0; 0; 0; 0; 0; 0; 0; 0; 0; 0; 0; 0; 0; 0; 0; 0; 0; 0; 0; 0; 0; 0; 0; 0; 0; 0; 0; 0; 0; 0; 0; 0; 0; (-1); 0; 0; 0; (-1); 0; 1; 0; 0; (-1); 0; 1; 0; 0; (-1); 0; 0; 0; 0; 0; (-1); 0; (-1); 0; (-1); 0; (-1); 0; 0; (-1); 0; (-1); 0; 1; 0; 1; 0; 0; (-1); 0; 0; 1; 0; (-1); 0; 0; 0; (-1); 0; 1; 0; 0; 0; (-1); 0; 1; 0; 0; 0; 0; 1; 0; 1; 0; 0; 0; (-1); 0; 1; 0; 0; 0; (-1); 0; 0; (-1); 0; 1; 0; 0; (-1); 0; 1; 0; (-1); 0; (-1); 0; (-1); 0; 0; 0; 1; 0; (-1); 0; 0; 0; 0; 0; (-1); 0; 0; 1; 0; (-1); 0; 0; 1; 0; (-1); 0; 0; 1; 0; 0; 1; 0; 1; 0; 1; 0; 1; 0; 0; 0; 0] 94885867231866095278318472505966115423127224487264891059874518013034324467476 37066654034885735624806322356510097805546238708352495744090097178857610306956.
Definition roots_secp256r1 : list Z := [40762952139064118806777675350148090911631893895805329105018657433036398494978; 81660738468455042456364655180299892821600475357887291156634134493444617694666; 76920446347122715154972996108084017386840196062434257253714203234699123185565; 81547978011819131798736280244627857911766932812960762763405288224375419706132; 10593443581380545281384051099943488543206105597547607988271675053231183772701].

Definition cert_secp384r1 : cert := mkcert 14 1%uint63 [0; 0; 0; 0; 0; 0; 0; 0; 0; 0; 0; 0; 0; 0; 0; 0; 0; 0; 0; 0; 0; 0; 0; 0; 0; 0; 0; 0; 0; 0; 0; 0; 0; 0; 0; 0; 0; 0; 0; 0; 0; 0; 0; 0; 0; 0; 0; 0; 0; 0; 0; 0; 0; 0; 0; 0; 0; 0; 0; 0; 0; 0; 0; 0; 0; 0; 0; 0; 0; 0; 0; 0; 0; 0; 0; 0; 0; 0; 0; 0; 0; 0; 0; 0; 0; 0; 0; 0; 0; 0; 0; 0; 0; 0; 0; 0; 0; 0; 0; 0; 0; 0; 0; 0; 0; 0; 0; 0; 0; 0; 0; 0; 0; 0; 0; 0; 0; 0; 0; 0; 0; 0; 0; 0; 0; 0; 0; 0; 0; 0; 0; 0; 0; 0; 0; 0; 0; 0; 0; 0; 0; 0; 0; 0; 0; 0; 0; 0; 0; 0; 0; 0; 0; 0; 0; 0; 0; 0; 0; 0; 0; 0; 0; 0; 0; 0; 0; 0; 0; 0; 0; 0; 0; 0; 0; 0; 0; 0; 0; 0; 0; 0; 0; 0; 0; 0; 0; 0; 0; 0; 0; 0; 0; (-1); 0; 0; 1; 0; 0; 0; (-1); 0; (-1); 0; 0; 1; 0; (-1); 0; 1; 0; 1; 0; 0; (-1); 0; (-1); 0; 0; 0; 0; 0; 1; 0; 0; 0; 0; (-1); 0; 1; 0; 0; 0; 1; 0; 0; (-1); 0; 0; (-1); 0; 1; 0; (-1); 0; 0; (-1); 0; 0; 0; (-1); 0; 0; 0; 0; 0; (-1); 0; (-1); 0; (-1); 0; 0; 0; 0; 0; 1; 0; (-1); 0; 1; 0; 0; 0; 0; 1; 0; 0; (-1); 0; 0; (-1); 0; (-1); 0; 0; 1; 0; 0; 1; 0; 0; 1; 0; 0; 1; 0; (-1); 0; (-1); 0; 0; 0; 0; 1; 0; 1; 0; 1; 0; 0; 0; (-1); 0; 0; 0; 0; (-1); 0; (-1); 0; 0; 0; (-1); 0; (-1); 0; 1; 0; 0; 0; (-1); 0; (-1); 0; 0; 0; 0; 1; 0; (-1); 0; 1; 0; (-1); 0; 0; (-1); 0; (-1); 0; (-1); 0; (-1); 0; 1; 0; (-1); 0; 1; 0; (-1); 0; 0; 0; 1; 0; 1; 0; 0; 1; 0; 1; 0; 1; 0; (-1); 0; 0; (-1); 0; 0; 1; 0] 13557966221077868804289810938058829284372089277886131514591316712725422755836008594964722358273074828311976723465194 10520351169895739632903002208024995240561415281189647170712129193674637846202765788082671702912566059106164431904632.
Definition roots_secp384r1 : list Z := [74574843811983373053582146810358997999234419015025022101017029040620034769539076964765175279678239683327635635827; 19412693353391933980781096537590398026764024842551684943221480913579771857264515325166407043569238913570113516269423; 38460456608535764288842595544195734956714343395312308764933199979271687065482188053781041607137681309668430759342309; 30794780049809524413056664465686138238929388755505572072882322713541120647614943548962019529131802113866306965062492; 17250293543169885067384276037447755445027421097679250460009572688075808244741891767106786846511070033212131589960377].

Definition cert_secp521r1 : cert := mkcert 19 1%uint63 [0; 0; 0; 0; 0; 0; 0; 0; 0; 0; 0; 0; 0; 0; 0; 0; 0; 0; 0; 0; 0; 0; 0; 0; 0; 0; 0; 0; 0; 0; 0; 0; 0; 0; 0; 0; 0; 0; 0; 0; 0; 0; 0; 0; 0; 0; 0; 0; 0; 0; 0; 0; 0; 0; 0; 0; 0; 0; 0; 0; 0; 0; 0; 0; 0; 0; 0; 0; 0; 0; 0; 0; 0; 0; 0; 0; 0; 0; 0; 0; 0; 0; 0; 0; 0; 0; 0; 0; 0; 0; 0; 0; 0; 0; 0; 0; 0; 0; 0; 0; 0; 0; 0; 0; 0; 0; 0; 0; 0; 0; 0; 0; 0; 0; 0; 0; 0; 0; 0; 0; 0; 0; 0; 0; 0; 0; 0; 0; 0; 0; 0; 0; 0; 0; 0; 0; 0; 0; 0; 0; 0; 0; 0; 0; 0; 0; 0; 0; 0; 0; 0; 0; 0; 0; 0; 0; 0; 0; 0; 0; 0; 0; 0; 0; 0; 0; 0; 0; 0; 0; 0; 0; 0; 0; 0; 0; 0; 0; 0; 0; 0; 0; 0; 0; 0; 0; 0; 0; 0; 0; 0; 0; 0; 0; 0; 0; 0; 0; 0; 0; 0; 0; 0; 0; 0; 0; 0; 0; 0; 0; 0; 0; 0; 0; 0; 0; 0; 0; 0; 0; 0; 0; 0; 0; 0; 0; 0; 0; 0; 0; 0; 0; 0; 0; 0; 0; 0; 0; 0; 0; 0; 0; 0; 0; 0; 0; 0; 0; 0; 0; 0; 0; 0; 0; 0; 0; 0; 0; 0; 0; 0; (-1); 0; 1; 0; 0; 1; 0; 1; 0; 0; 1; 0; (-1); 0; 0; 0; 1; 0; (-1); 0; 1; 0; 0; 0; 1; 0; 0; 0; (-1); 0; 0; 0; 0; 1; 0; 0; 0; (-1); 0; 0; 0; 0; 0; (-1); 0; 1; 0; (-1); 0; 0; 0; 0; (-1); 0; 1; 0; (-1); 0; (-1); 0; 1; 0; 0; (-1); 0; (-1); 0; 0; (-1); 0; 0; 0; 0; 0; 0; 0; 0; (-1); 0; 1; 0; (-1); 0; 0; 0; 0; 0; 0; 0; 0; 0; 1; 0; 1; 0; 0; 1; 0; 0; 1; 0; 0; 0; 0; (-1); 0; 0; (-1); 0; 0; 0; 0; 1; 0; 1; 0; (-1); 0; 1; 0; 1; 0; (-1); 0; 0; (-1); 0; 1; 0; 0; 0; 0; 0; 1; 0; 0; 0; (-1); 0; 0; 0; (-1); 0; 0; (-1); 0; (-1); 0; 0; (-1); 0; 0; 1; 0; 1; 0; 0; (-1); 0; 0; (-1); 0; 0; 0; 1; 0; 0; 0; 1; 0; 1; 0; (-1); 0; 1; 0; 0; (-1); 0; 0; 0; 1; 0; 0; 1; 0; 0; 0; 0; (-1); 0; (-1); 0; 0; 0; (-1); 0; (-1); 0; 0; 0; (-1); 0; 0; (-1); 0; 0; (-1); 0; 0; 0; 0; 0; (-1); 0; 0; (-1); 0; 0; (-1); 0; 0; 1; 0; 0; 0; (-1); 0; 1; 0; 0; 1; 0; 0; 0; 1; 0; 1; 0; 0; (-1); 0; 0; 0; 1; 0; (-1); 0; 0; 1; 0; 0; 0; 0; 0; 0; 1; 0; 0; 0] 4812718120411001544945615040346008253561614019273944150897135138823504691304997215282775441247185614034363957752705230817055339299221856021753325753860169738 5181059221410025623239791785508109934427518278345800105931984091084315817654954493078208955328684757879695026597884063930904170674741010288208961226852912112.
Definition roots_secp521r1 : list Z := [1211947622333136366414025270331076048236290577688702447906433341401809021958488729625622116527243857651223562727082013955235382460505413462575191843053980906; 2743020872042828645306826436620154616566426712177400776106564985980653218410366804240836857458898360415330551055061362498897546965489530920630122561247841387; 5459244822747123309997322175958686032641342652879566684813040929118791487223873796419150503694228661885377262274229022739145442505163809141477170425497990777; 3249956858041627327860523392663797798707338528798007355848758408053780313983626021860910130469428848109227455926550660065096438304208666650797326953948062469; 1942604114621207269104673979765750776131655823880090640861916061700683746482907145232029882329161297123590204557067603873360079970817177731599588928815666321].

(** a curve over the integers modulo the 361-bit prime factor in the chain of secp521r1, with a point of 199-bit prime order *)
Definition q361 : Z := 3636410625392624440351547907325502812950802686368714273274221490761556277859337865760708490235892541081304511.
Definition q199 : Z := 522996831121946918645574135122861461946031791899402247158739.
Definition a361 : Z := 1335824311368719182169956374119572461900294864380344018753795649667510469417715950687607200494817668152315598.
Definition b361 : Z := 2523223699252025121876584262225859094700556966051760924312725116038630886677907906854369156490211150954372030.
Definition x361 : Z := 2619338403297919979991030623430324267138486986746651953353562072972445322436862159127639372077418411678943328.
Definition y361 : Z := 2909770683246611738050310183683503896743399972360477996989506329726832279916639446462045244314507409341596574.
Definition cert_361 : cert := mkcert 14 242863553%uint63 [0; 1; 0; 1; 0; (-1); 0; 1; 0; 1; 0; 0; 1; 0; (-1); 0; 0; 0; (-1); 0; (-1); 0; 0; (-1); 0; (-1); 0; 0; 1; 0; 0; (-1); 0; 0; (-1); 0; (-1); 0; 1; 0; 0; 0; (-1); 0; 0; 1; 0; 1; 0; 0; 0; (-1); 0; 1; 0; 1; 0; (-1); 0; 1; 0; 0; 0; (-1); 0; 1; 0; 0; 0; 0; 1; 0; 0; 0; 0; (-1); 0; 0; 0; 0; 1; 0; 0; 0; (-1); 0; 0; 0; (-1); 0; 0; (-1); 0; (-1); 0; 0; 0; (-1); 0; 0; 0; (-1); 0; 0; 0; 1; 0; 1; 0; (-1); 0; 0; 0; (-1); 0; (-1); 0; 1; 0; 1; 0; (-1); 0; 1; 0; 1; 0; 0; 0; (-1); 0; 1; 0; (-1); 0; (-1); 0; 1; 0; (-1); 0; 0; 0; (-1); 0; 1; 0; (-1); 0; 0; 0; (-1); 0; 1; 0; 0; 0; 0; 0; 1; 0; 1; 0; (-1); 0; 1; 0; 1; 0; (-1); 0; 0; (-1); 0; 0; 0; 1; 0; 0; 1; 0; 1; 0; 1; 0; 0; 0; (-1); 0; 0; 0; (-1); 0; 1; 0; 0; 1; 0] 1774256315762809465678932494932328565372726967434915576122651429076357115727851168444037479129110863708918013 1929752169763361477908539795348622884497788712895565994749273120343505309963288930614324561122276483669942807.
