*.vo
*.vos
*.vok
*.glob
.*.aux
.lia.cache
.nra.cache
.nia.cache
.Makefile.d
rocq/Makefile
rocq/Makefile.conf
.coqdeps.d
