*.vo
*.vok
*.vos
*.glob
*.aux
.*.aux
.nra.cache
.lia.cache
.Makefile.d
Makefile
Makefile.conf
.coqdeps.d
.nia.cache
