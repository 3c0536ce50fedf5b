*.vo
*.vok
*.vos
*.glob
*.aux
.*.aux
.lia.cache
.nia.cache
.nra.cache
.Makefile*
rocq/Makefile
rocq/Makefile.conf
rocq/.*.d
